(** The temporary allocator and its nested pools (lib/std/core/allocators/temp_allocator.c3, [push_pool] and [pop_pool] of
    lib/std/core/mem_allocator.c3:373-385, which [@pool] in lib/std/core/mem.c3:592-600 calls at entry and exit).

    [TempAllocator] has 64 bytes before [data], a chunk header is the 8 bytes of its size, a page header has 32 bytes of which the last
    8 are [ident]. Sizes of chunks and [ident] of pages are in the byte memory, since [release] and [resize] read one for the other; the
    other fields of pages and of the allocators are kept in records, the page list and the chain of derived allocators as lists. A write
    outside every live region of the backing allocator is [Wild], and so is the use of an allocator whose memory has been given back.
    Address sanitizer calls are left out. *)
From Coq Require Import ZArith Bool List.
From Verif Require Import Word AlcSpec AlcMem AlcBack.
Import ListNotations.
Open Scope Z_scope.

(** temp_allocator.c3:52-62: a page; [pg_data] is the address of [data]; the flag [PAGE_IS_ALIGNED], which only tells the backing
    allocator how the page was obtained, is left out of [pg_size]. *)
Record page : Type := Pg { pg_start : Z; pg_data : Z; pg_size : Z }.
(** temp_allocator.c3:32-42: an allocator; [tm_base] is the address of [data], [tm_pages] the list from [last_page]. *)
Record temp : Type := Tm { tm_base : Z; tm_alloc : bool; tm_used : Z; tm_cap : Z; tm_orig : Z; tm_pages : list page }.
Definition tm_with (t : temp) (used : Z) (ps : list page) : temp := Tm (tm_base t) (tm_alloc t) used (tm_cap t) (tm_orig t) ps.
Definition tstate : Type := (temp * backing * mem)%type.

Definition covered (l : list (Z * Z)) (a n : Z) : bool := existsb (fun r => (fst r <=? a) && (a + n <=? fst r + snd r)) l.
Definition all_ones : Z := W - 1.

(** temp_allocator.c3:275-319: the fallback of [acquire] to a page of the backing allocator. *)
Definition temp_page (t : temp) (b : backing) (m : mem) (size : Z) (zero : bool) (al : Z) : outcome tstate :=
  let total := if 16 <? al then aligned_offset (wadd 32 size) al else wadd (aligned_offset 32 16) size in
  let header := if 16 <? al then aligned_offset 32 al else aligned_offset 32 16 in
  match bk_acquire b m total zero (if 16 <? al then al else 0) with
  | (None, b1, m1) => Done (t, b1, m1) AFail
  | (Some st, b1, m1) =>
      let d := wadd st header in
      if covered (bk_live b1) (wsub d 8) 8
      then Done (tm_with t (tm_used t) (Pg st d size :: tm_pages t), b1, st8 m1 (wsub d 8) all_ones) (APtr d)
      else Wild
  end.
(** temp_allocator.c3:251-319: [acquire]. *)
Definition temp_acquire (t : temp) (b : backing) (m : mem) (size : Z) (zero : bool) (align : Z) : outcome tstate :=
  let al := alignment_for align in
  let p := aligned_offset (wadd (aligned_offset (wadd (tm_base t) (tm_used t)) 8) 8) al in
  let usage := wadd (wsub p (tm_base t)) size in
  if usage <=? tm_cap t then
    if covered (bk_live b) (wsub p 8) 8 && (negb zero || covered (bk_live b) p size) then
      let m1 := st8 m (wsub p 8) size in
      Done (tm_with t usage (tm_pages t), b, if zero then mclear m1 p size else m1) (APtr p)
    else Wild
  else temp_page t b m size zero al.
(** temp_allocator.c3:162-170: [release]. *)
Definition temp_release (t : temp) (m : mem) (p : Z) : temp :=
  let old := ld8 m (wsub p 8) in
  if wadd p old =? wadd (tm_base t) (tm_used t) then tm_with t (wsub (tm_used t) old) (tm_pages t) else t.

(** temp_allocator.c3:185-191: the walk that takes a page out of the list. *)
Fixpoint unlink (p : Z) (ps : list page) : option (page * list page) :=
  match ps with
  | [] => None
  | g :: r => if pg_data g =? p then Some (g, r) else match unlink p r with Some (h, r') => Some (h, g :: r') | None => None end
  end.
(** temp_allocator.c3:179-199: [_realloc_page]. Not finding the page ends in a null pointer ([Trap]). *)
Definition temp_realloc_page (t : temp) (b : backing) (m : mem) (p size align : Z) : outcome tstate :=
  match unlink p (tm_pages t) with
  | None => Trap
  | Some (g, ps) =>
    match temp_acquire (tm_with t (tm_used t) ps) b m size false align with
    | Done (t1, b1, m1) (APtr d) =>
        let n := if size <? pg_size g then size else pg_size g in
        if covered (bk_live b1) d n then
          match bk_release b1 (mcopy m1 d p n) (pg_start g) with
          | Some (b2, m2) => Done (t1, b2, m2) (APtr d)
          | None => Wild
          end
        else Wild
    | r => r
    end
  end.
(** temp_allocator.c3:201-243: [resize]. The comparison of line 216 is between a [usz] and an [isz], which C3 compares by value. *)
Definition temp_resize (t : temp) (b : backing) (m : mem) (p size align : Z) : outcome tstate :=
  let c := ld8 m (wsub p 8) in
  if c =? all_ones then temp_realloc_page t b m p size align
  else
    let last := wadd c p =? wadd (tm_base t) (tm_used t) in
    let diff := s64 (wsub size c) in
    if last && (diff =? 0) then Done (t, b, m) (APtr p)
    else if last && (diff <? wsub (tm_cap t) (tm_used t)) then
      if covered (bk_live b) (wsub p 8) 8
      then Done (tm_with t (wadd (tm_used t) diff) (tm_pages t), b, st8 m (wsub p 8) (wadd c diff)) (APtr p)
      else Wild
    else
      match temp_acquire t b m size false align with
      | Done (t1, b1, m1) (APtr d) =>
          let c1 := ld8 m1 (wsub p 8) in
          let n := if size <? c1 then size else c1 in
          if covered (bk_live b1) d n
          then Done (if last then tm_with t1 (wsub (wsub p 8) (tm_base t)) (tm_pages t1) else t1, b1, mcopy m1 d p n) (APtr d)
          else Wild
      | r => r
      end.

(** temp_allocator.c3:68-78 and 84-108: [new_temp_allocator] and [derive_allocator]: the parent after it, and the new allocator. *)
Definition temp_derive (t : temp) (b : backing) (m : mem) (min buffer mult : Z) : option (temp * temp) * backing * mem :=
  if wsub (tm_cap t) (tm_used t) <? wadd min buffer then
    let size := wmul min mult in
    match bk_acquire b m (wadd 64 size) false 0 with
    | (None, b1, m1) => (None, b1, m1)
    | (Some p, b1, m1) => (Some (t, Tm (wadd p 64) true 0 size size []), b1, m1)
    end
  else
    let start := aligned_offset (wadd (tm_used t) buffer) 16 in
    let cap := wsub (wsub (tm_cap t) start) 64 in
    (Some (Tm (tm_base t) (tm_alloc t) (tm_used t) start (tm_orig t) (tm_pages t),
           Tm (wadd (wadd (tm_base t) start) 64) false 0 cap cap []), b, m).

Definition mfill (m : mem) (a n v : Z) : mem := fun x => if (a <=? x) && (x <? a + n) then v else m x.
(** temp_allocator.c3:139-160: [destroy]; in safe mode the memory of an allocator inside its parent is filled with 0xAA. *)
Fixpoint free_pages (b : backing) (m : mem) (ps : list page) : option (backing * mem) :=
  match ps with
  | [] => Some (b, m)
  | g :: r => match bk_release b m (pg_start g) with None => None | Some (b1, m1) => free_pages b1 m1 r end
  end.
Definition temp_destroy (safe : bool) (t : temp) (b : backing) (m : mem) : option (backing * mem) :=
  if covered (bk_live b) (wsub (tm_base t) 64) 64 then
    match free_pages b m (tm_pages t) with
    | None => None
    | Some (b1, m1) => if tm_alloc t then bk_release b1 m1 (wsub (tm_base t) 64)
                       else Some (b1, if safe then mfill m1 (tm_base t) (tm_used t) 170 else m1)
    end
  else None.
Fixpoint temp_destroys (safe : bool) (ts : list temp) (b : backing) (m : mem) : option (backing * mem) :=
  match ts with
  | [] => Some (b, m)
  | t :: r => match temp_destroy safe t b m with None => None | Some (b1, m1) => temp_destroys safe r b1 m1 end
  end.

(** A thread's temporary memory: the nested allocators, the current one first; the configuration [temp_allocator_min_size],
    [temp_allocator_buffer_size], [temp_allocator_new_mult] (mem_allocator.c3:369-371). *)
Record pools : Type := Pl { pl_safe : bool; pl_min : Z; pl_buffer : Z; pl_mult : Z; pl_bk : backing; pl_temps : list temp; pl_mem : mem }.
Definition pl_with (s : pools) (b : backing) (ts : list temp) (m : mem) : pools := Pl (pl_safe s) (pl_min s) (pl_buffer s) (pl_mult s) b ts m.
(** mem_allocator.c3:373-378: [push_pool]; running out of memory ends the program there, the answer [AFail] here. The pool to return to is
    named by its depth. *)
Definition pool_push (s : pools) (t : temp) (r : list temp) : outcome pools :=
  match temp_derive t (pl_bk s) (pl_mem s) (pl_min s) (pl_buffer s) (pl_mult s) with
  | (None, b, m) => Done (pl_with s b (t :: r) m) AFail
  | (Some (t1, c), b, m) => Done (pl_with s b (c :: t1 :: r) m) (AMark (Z.of_nat (length r)))
  end.
(** mem_allocator.c3:380-385 and temp_allocator.c3:113-127: [pop_pool] and [reset], which destroys the derived allocators from the oldest
    on. *)
Definition pool_pop (s : pools) (k : Z) : outcome pools :=
  let n := (length (pl_temps s) - 1 - Z.to_nat k)%nat in
  match skipn n (pl_temps s) with
  | [] => Trap
  | t :: r =>
    match rev (firstn n (pl_temps s)) with
    | [] => Done s ADone
    | gone =>
      match temp_destroys (pl_safe s) gone (pl_bk s) (pl_mem s) with
      | None => Wild
      | Some (b, m) => Done (pl_with s b (Tm (tm_base t) (tm_alloc t) (tm_used t) (tm_orig t) (tm_orig t) (tm_pages t) :: r) m) ADone
      end
    end
  end.
Definition pool_lift (s : pools) (r : list temp) (o : outcome tstate) : outcome pools :=
  match o with
  | Done (t, b, m) a => Done (pl_with s b (t :: r) m) a
  | Trap => Trap
  | Wild => Wild
  end.
(** Requests go to the current allocator; [Mark] enters a pool, [Reset k] leaves all pools deeper than [k]. *)
Definition pool_step (s : pools) (o : op) : outcome pools :=
  match pl_temps s with
  | [] => Trap
  | t :: r =>
    match o with
    | Acquire n z al => pool_lift s r (temp_acquire t (pl_bk s) (pl_mem s) n z al)
    | Resize p n al => pool_lift s r (temp_resize t (pl_bk s) (pl_mem s) p n al)
    | Release p _ => Done (pl_with s (pl_bk s) (temp_release t (pl_mem s) p :: r) (pl_mem s)) ADone
    | Store p off v => Done (pl_with s (pl_bk s) (t :: r) (st1 (pl_mem s) (p + off) v)) ADone
    | Mark => pool_push s t r
    | Reset k => pool_pop s k
    end
  end.
(** mem_allocator.c3:443-446 and temp_allocator.c3:68-78: the outermost allocator of [size] bytes, whose memory starts at [base] - 64. *)
Definition pool_init (safe : bool) (min buffer mult : Z) (answer : nat -> option Z) (noise : nat -> mem) (base size : Z) (m : mem) : pools :=
  Pl safe min buffer mult (Bk answer noise 0 [(base - 64, 64 + size)]) [Tm base true 0 size size []] m.
