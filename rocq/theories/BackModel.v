(** Model of lib/std/core/allocators/backed_arena_allocator.c3 (BackedArenaAllocator).
    The chain of pages is a list, newest first.  Simplifications: sizes and addresses are unbounded integers (no request wraps); the size or
    page mark stored in front of a block is kept beside the block, not in the memory [bytes]; the clearing of new memory is left out.
    [marks] are the results of mark() a program still holds, newest first, and [depth] how many it held when the block was made: with them
    the model says which blocks a reset takes back.  Programs reset to their marks in the reverse order of taking them. *)
From Coq Require Import ZArith Bool List.
Import ListNotations.
Local Open Scope Z_scope.

Definition HEADER : Z := 8.                        (* AllocChunk.sizeof, backed_arena_allocator.c3:4-8 *)
Definition PAGE : Z := 40.                         (* ExtraPage.sizeof, backed_arena_allocator.c3:21-29 *)
(** mem.c3:283-291 aligned_offset, aligned_pointer. *)
Definition align_up (x al : Z) : Z := al * ((x + al - 1) / al).
(** mem_allocator.c3:47-50 alignment_for_allocation. *)
Definition alignment_for (al : Z) : Z := if al <? 16 then 16 else al.
(** backed_arena_allocator.c3:21-29: the memory from the backing allocator, the block in it, its size, and the mark. *)
Record page := Page { start : Z; total : Z; data : Z; len : Z; mark : Z }.
(** A block handed out; [paged] tells whether the word in front of it is that of a page. *)
Record block := Block { ptr : Z; size : Z; depth : nat; paged : bool }.
(** backed_arena_allocator.c3:10-17; [lost] are pages unlinked but not given back. *)
Record arena := Arena { base : Z; capacity : Z; used : Z; pages : list page; lost : list page; marks : list Z; live : list block; bytes : Z -> Z }.
(** backed_arena_allocator.c3:34-45 new_backed_allocator. *)
Definition arena_init (b cap : Z) (m : Z -> Z) : arena := Arena b cap 0 [] [] [] [] m.
Definition extent (p : page) : Z * Z := (start p, total p).
(** All the memory the arena has. *)
Definition owned (a : arena) : list (Z * Z) := (base a, capacity a) :: map extent (pages a ++ lost a).
(** The backing allocator, a function of the size, the alignment and of what is in use. *)
Definition provider := Z -> Z -> list (Z * Z) -> option Z.
Inductive answer := Ptr (p : Z) | Refused | Done | Misuse | Crash.

(** backed_arena_allocator.c3:136-210 acquire. *)
Definition acquire (provide : provider) (n al : Z) (a : arena) : answer * arena :=
  let al := alignment_for al in
  let mem := align_up (align_up (base a + used a) 8 + HEADER) al in
  let new_usage := mem - base a + n in
  if new_usage <=? capacity a then
    (Ptr mem, Arena (base a) (capacity a) new_usage (pages a) (lost a) (marks a) (Block mem n (length (marks a)) false :: live a) (bytes a))
  else
    let size := if 16 <? al then align_up (PAGE + n) al else align_up PAGE 16 + n in
    let offset := if 16 <? al then align_up PAGE al else align_up PAGE 16 in
    match provide size al (owned a) with
    | None => (Refused, a)
    | Some s =>
      (Ptr (s + offset), Arena (base a) (capacity a) (used a + 1) (Page s size (s + offset) n (used a + 1) :: pages a) (lost a) (marks a)
                           (Block (s + offset) n (length (marks a)) true :: live a) (bytes a))
    end.
(** The block at a pointer, and the others. *)
Fixpoint lookup (l : list block) (p : Z) : option (block * list block) :=
  match l with
  | [] => None
  | b :: r => if ptr b =? p then Some (b, r) else match lookup r p with Some (x, r') => Some (x, b :: r') | None => None end
  end.
(** backed_arena_allocator.c3:56-64 release.  In front of a page is ~0: the sum is the address before the page, and subtracting adds 1. *)
Definition release (p : Z) (a : arena) : answer * arena :=
  match lookup (live a) p with
  | None => (Misuse, a)
  | Some (b, l) =>
    let u := if paged b then if p - 1 =? base a + used a then used a + 1 else used a
             else if p + size b =? base a + used a then used a - size b else used a in
    (Done, Arena (base a) (capacity a) u (pages a) (lost a) (marks a) l (bytes a))
  end.
Definition copy (m : Z -> Z) (dst src n : Z) : Z -> Z := fun x => if (dst <=? x) && (x <? dst + n) then m (src + (x - dst)) else m x.
(** backed_arena_allocator.c3:103-110: the page is taken out of the list. *)
Fixpoint unlink (l : list page) (p : Z) : option (page * list page) :=
  match l with
  | [] => None
  | g :: r => if data g =? p then Some (g, r) else match unlink r p with Some (x, r') => Some (x, g :: r') | None => None end
  end.
(** backed_arena_allocator.c3:98-134 _realloc_page, resize; the old size is copied. *)
Definition resize (provide : provider) (p n al : Z) (a : arena) : answer * arena :=
  match lookup (live a) p with
  | None => (Misuse, a)
  | Some (b, l) =>
    if paged b then
      match unlink (pages a) p with
      | None => (Crash, a)
      | Some (g, gs) =>
        match acquire provide n al (Arena (base a) (capacity a) (used a) gs (g :: lost a) (marks a) (live a) (bytes a)) with
        | (Ptr q, a') => (Ptr q, Arena (base a') (capacity a') (used a') (pages a') (lost a) (marks a')
                                   (Block q n (length (marks a)) (match live a' with c :: _ => paged c | [] => false end) :: l) (copy (bytes a') q p (len g)))
        | r => r
        end
      end
    else
      match acquire provide n al a with
      | (Ptr q, a') => (Ptr q, Arena (base a') (capacity a') (used a') (pages a') (lost a') (marks a')
                                 (Block q n (length (marks a)) (match live a' with c :: _ => paged c | [] => false end) :: l) (copy (bytes a') q p (size b)))
      | r => r
      end
  end.
(** backed_arena_allocator.c3:67-75: the pages made since the mark are given back. *)
Fixpoint free_pages (l : list page) (m used : Z) : list page * Z :=
  match l with
  | [] => ([], used)
  | g :: r => if m <? mark g then free_pages r m (mark g) else (l, used)
  end.
Definition fill (m : Z -> Z) (from upto v : Z) : Z -> Z := fun x => if (from <=? x) && (x <? upto) then v else m x.
(** backed_arena_allocator.c3:65-90 reset; in safe mode the memory is overwritten if no page is left.  The difference is unsigned: when it
    wraps, all of the memory behind the mark is written, [None]. *)
Definition reset (safe : bool) (m : Z) (a : arena) : option (Z * list page * (Z -> Z)) :=
  let (gs, u) := free_pages (pages a) m (used a) in
  if safe && (match gs with [] => true | _ => false end) then
    if u <? m then None else Some (m, gs, fill (bytes a) (base a + m) (base a + u) 170)
  else Some (m, gs, bytes a).
Inductive op := Acquire (n al : Z) | Release (p : Z) | Resize (p n al : Z) | Mark | Reset | Store (x v : Z).
Definition step (safe : bool) (provide : provider) (o : op) (a : arena) : answer * arena :=
  match o with
  | Acquire n al => acquire provide n al a
  | Release p => release p a
  | Resize p n al => resize provide p n al a
  | Mark => (Done, Arena (base a) (capacity a) (used a) (pages a) (lost a) (used a :: marks a) (live a) (bytes a))     (* line 54 *)
  | Reset =>
    match marks a with
    | [] => (Misuse, a)
    | m :: ms =>
      match reset safe m a with
      | None => (Crash, a)
      | Some (u, gs, m') => (Done, Arena (base a) (capacity a) u gs (lost a) ms (filter (fun b => (depth b <=? length ms)%nat) (live a)) m')
      end
    end
  | Store x v => (Done, Arena (base a) (capacity a) (used a) (pages a) (lost a) (marks a) (live a) (fun y => if y =? x then v else bytes a y))
  end.
(** backed_arena_allocator.c3:47-52 destroy: the memory of the pages that is not given back. *)
Definition destroy (safe : bool) (a : arena) : option (list (Z * Z)) :=
  match reset safe 0 a with
  | None => None
  | Some (_, gs, _) => Some (map extent (tl gs ++ lost a))
  end.
