(** Model of lib/std/core/allocators/on_stack_allocator.c3: [OnStackAllocator]. The chain of [OnStackAllocatorExtraChunk]s is a list; each
    chunk record occupies a live region of the backing allocator, whose bytes are not modelled (nobody else writes them). The buffer is one
    of the live regions of the backing allocator from the start, so that the backing allocator never hands it out. *)
From Coq Require Import ZArith Bool List.
From Verif Require Import Word AlcSpec AlcMem AlcBack.
Import ListNotations.
Open Scope Z_scope.

(** on_stack_allocator.c3:12-17. *)
Record chunk : Type := Ck { ck_self : Z; ck_aligned : bool; ck_data : Z }.
(** on_stack_allocator.c3:3-9, and the memory. *)
Record onstack : Type := Os { os_bk : backing; os_base : Z; os_len : Z; os_used : Z; os_chunks : list chunk; os_mem : mem }.
Definition os_inside (s : onstack) (a n : Z) : bool := (os_base s <=? a) && (a + n <=? os_base s + os_len s).
(** Chunk records have 24 bytes: a bool padded to 8, and two pointers. *)
Definition chunk_size : Z := 24.

(** on_stack_allocator.c3:24-29: [init]. *)
Definition onstack_init (answer : nat -> option Z) (noise : nat -> mem) (base len : Z) (m : mem) : onstack :=
  Os (Bk answer noise 0 [(base, len)]) base len 0 [] m.

(** on_stack_allocator.c3:130-150: [acquire]. The failing case frees the chunk record ([defer catch]) and does not link it
    ([defer try]). *)
Definition onstack_acquire (s : onstack) (size : Z) (zero : bool) (align : Z) : outcome onstack :=
  let aligned := 0 <? align in
  let al := alignment_for align in
  let mem := aligned_offset (wadd (wadd (os_base s) (os_used s)) 8) al in
  let e := wadd (wsub mem (os_base s)) size in
  if os_len s <? e then
    let '(rec, b1, m1) := bk_acquire (os_bk s) (os_mem s) chunk_size false 0 in
    match rec with
    | None => Done (Os b1 (os_base s) (os_len s) (os_used s) (os_chunks s) m1) AFail
    | Some c =>
      let '(data, b2, m2) := bk_acquire b1 m1 size zero (if aligned then al else 0) in
      match data with
      | None => match bk_release b2 m2 c with
                | None => Wild
                | Some (b3, m3) => Done (Os b3 (os_base s) (os_len s) (os_used s) (os_chunks s) m3) AFail
                end
      | Some d => Done (Os b2 (os_base s) (os_len s) (os_used s) (Ck c aligned d :: os_chunks s) m2) (APtr d)
      end
    end
  else
    let h := wsub mem 8 in
    if os_inside s h 8 then Done (Os (os_bk s) (os_base s) (os_len s) e (os_chunks s) (st8 (os_mem s) h size)) (APtr mem) else Wild.

(** on_stack_allocator.c3:66-69: [allocation_in_stack_mem]; [&a.data[^1]] is the last byte. *)
Definition in_stack_mem (s : onstack) (p : Z) : bool := (os_base s <=? p) && (p <=? os_base s + os_len s - 1).
(** on_stack_allocator.c3:71-87: [on_stack_allocator_remove_chunk]: the record found first, and the others. *)
Fixpoint remove_chunk (p : Z) (l : list chunk) : option (chunk * list chunk) :=
  match l with
  | [] => None
  | c :: r => if ck_data c =? p then Some (c, r) else match remove_chunk p r with Some (x, r') => Some (x, c :: r') | None => None end
  end.
(** on_stack_allocator.c3:59-64: [release]. *)
Definition onstack_release (s : onstack) (p : Z) : outcome onstack :=
  if in_stack_mem s p then Done s ADone else
  match remove_chunk p (os_chunks s) with
  | None => Trap
  | Some (c, r) =>
    match bk_release (os_bk s) (os_mem s) (ck_self c) with
    | None => Wild
    | Some (b1, m1) =>
      match bk_release b1 m1 p with
      | None => Wild
      | Some (b2, m2) => Done (Os b2 (os_base s) (os_len s) (os_used s) r m2) ADone
      end
    end
  end.

(** on_stack_allocator.c3:89-98: [on_stack_allocator_find_chunk], and the store to [chunk.data] of line 111. *)
Fixpoint retarget (p q : Z) (l : list chunk) : option (list chunk) :=
  match l with
  | [] => None
  | c :: r => if ck_data c =? p then Some (Ck (ck_self c) (ck_aligned c) q :: r) else match retarget p q r with Some r' => Some (c :: r') | None => None end
  end.
(** on_stack_allocator.c3:105-121: [resize]. *)
Definition onstack_resize (s : onstack) (p size align : Z) : outcome onstack :=
  if negb (in_stack_mem s p) then
    match retarget p p (os_chunks s) with
    | None => Trap
    | Some _ =>
      match bk_resize (os_bk s) (os_mem s) p size align with
      | None => Wild
      | Some (None, b1, m1) => Done (Os b1 (os_base s) (os_len s) (os_used s) (os_chunks s) m1) AFail
      | Some (Some q, b1, m1) =>
          match retarget p q (os_chunks s) with
          | None => Trap
          | Some cs => Done (Os b1 (os_base s) (os_len s) (os_used s) cs m1) (APtr q)
          end
      end
    end
  else
    let old := ld8 (os_mem s) (wsub p 8) in
    match onstack_acquire s size false align with
    | Done s1 (APtr q) =>
        if os_inside s1 q old || existsb (fun r => (fst r <=? q) && (q + old <=? fst r + snd r)) (bk_live (os_bk s1))
        then Done (Os (os_bk s1) (os_base s1) (os_len s1) (os_used s1) (os_chunks s1) (mcopy (os_mem s1) q p old)) (APtr q) else Wild
    | r => r
    end.

(** on_stack_allocator.c3:31-49: [free] releases every chunk and starts over; here the request [Reset]. *)
Fixpoint free_chunks (b : backing) (m : mem) (l : list chunk) : option (backing * mem) :=
  match l with
  | [] => Some (b, m)
  | c :: r => match bk_release b m (ck_data c) with
              | None => None
              | Some (b1, m1) => match bk_release b1 m1 (ck_self c) with None => None | Some (b2, m2) => free_chunks b2 m2 r end
              end
  end.
Definition onstack_free (s : onstack) : outcome onstack :=
  match free_chunks (os_bk s) (os_mem s) (os_chunks s) with
  | None => Wild
  | Some (b, m) => Done (Os b (os_base s) (os_len s) 0 [] m) ADone
  end.
Definition onstack_step (s : onstack) (o : op) : outcome onstack :=
  match o with
  | Acquire n z al => onstack_acquire s n z al
  | Resize p n al => onstack_resize s p n al
  | Release p _ => onstack_release s p
  | Store p off v => Done (Os (os_bk s) (os_base s) (os_len s) (os_used s) (os_chunks s) (st1 (os_mem s) (p + off) v)) ADone
  | Mark => Done s (AMark 0)
  | Reset _ => onstack_free s
  end.
