(** Model of lib/std/core/allocators/dynamic_arena.c3 (DynamicArenaAllocator).
    The chains of pages are lists.  Simplifications: sizes and addresses are unbounded integers (no request wraps); the sizes stored in
    front of the blocks are kept beside the blocks, not in the memory [bytes]; the page structures themselves are not in the memory. *)
From Coq Require Import ZArith Bool List.
Import ListNotations.
Local Open Scope Z_scope.

Definition PREFIX : Z := 8.                        (* DynamicArenaChunk.sizeof, DEFAULT_SIZE_PREFIX *)
(** mem.c3:283-291 aligned_offset, aligned_pointer. *)
Definition align_up (x al : Z) : Z := al * ((x + al - 1) / al).
(** mem_allocator.c3:47-50 alignment_for_allocation. *)
Definition alignment_for (al : Z) : Z := if al <? 16 then 16 else al.
(** dynamic_arena.c3:49-56; 0 is the null pointer. *)
Record page := Page { memory : Z; total : Z; used : Z; top_ptr : Z }.
Definition block := (Z * Z)%type.                  (* pointer and size *)
Record arena := Arena { pages : list page; unused : list page; page_size : Z; live : list block; bytes : Z -> Z }.
(** dynamic_arena.c3:19-25 init. *)
Definition arena_init (size : Z) (m : Z -> Z) : arena := Arena [] [] size [] m.
(** The backing allocator, a function of the size and of the memory of the pages. *)
Definition provider := Z -> list block -> option Z.
Definition extent (p : page) : block := (memory p, total p).
Inductive answer := Ptr (p : Z) | Refused | Done | Misuse | Assertion.

(** dynamic_arena.c3:129-158 _alloc_new. *)
Definition alloc_new (provide : provider) (n al : Z) (a : arena) : answer * arena :=
  let size := Z.max (page_size a) (align_up (n + PREFIX + al) al) in
  if negb (n + PREFIX <? size) then (Assertion, a) else
  match provide size (map extent (pages a ++ unused a)) with
  | None => (Refused, a)
  | Some mem =>
    let start := align_up (mem + PREFIX) al in
    if negb (start + n <? mem + size) then (Assertion, a) else
    (Ptr start, Arena (Page mem size (start + n - mem) start :: pages a) (unused a) (page_size a) ((start, n) :: live a) (bytes a))
  end.
Definition start_in (p : page) (al : Z) : Z := align_up (memory p + used p + PREFIX) al.
Definition with_used (p : page) (u : Z) : page := Page (memory p) (total p) u (top_ptr p).
(** dynamic_arena.c3:160-211 acquire; the clearing of the memory is left out. *)
Definition acquire (provide : provider) (n al : Z) (a : arena) : answer * arena :=
  let al := alignment_for al in
  let a := match pages a, unused a with [], u :: us => Arena [u] us (page_size a) (live a) (bytes a) | _, _ => a end in
  match pages a with
  | [] => alloc_new provide n al a
  | p :: ps =>
    let start := start_in p al in
    let new_used := start - memory p + n in
    if total p <? new_used then
      match unused a with
      | u :: us =>
        let start := start_in u al in
        let new_used := start + n - memory u in
        if new_used <=? total u then (Ptr start, Arena (with_used u new_used :: p :: ps) us (page_size a) ((start, n) :: live a) (bytes a))
        else alloc_new provide n al a
      | [] => alloc_new provide n al a
      end
    else (Ptr start, Arena (with_used p new_used :: ps) (unused a) (page_size a) ((start, n) :: live a) (bytes a))
  end.
(** The size in front of a pointer, and the other blocks. *)
Fixpoint lookup (l : list block) (p : Z) : option (Z * list block) :=
  match l with
  | [] => None
  | (q, s) :: r => if q =? p then Some (s, r) else match lookup r p with Some (x, r') => Some (x, (q, s) :: r') | None => None end
  end.
(** dynamic_arena.c3:63-75 release. *)
Definition release (p : Z) (a : arena) : answer * arena :=
  match pages a, lookup (live a) p with
  | c :: ps, Some (_, l) =>
    let u := if p =? top_ptr c then p - PREFIX - memory c else used c in
    (Done, Arena (Page (memory c) (total c) u 0 :: ps) (unused a) (page_size a) l (bytes a))
  | _, _ => (Misuse, a)
  end.
Definition copy (m : Z -> Z) (dst src n : Z) : Z -> Z := fun x => if (dst <=? x) && (x <? dst + n) then m (src + (x - dst)) else m x.
(** dynamic_arena.c3:77-111 resize. *)
Definition resize (provide : provider) (p n al : Z) (a : arena) : answer * arena :=
  match pages a, lookup (live a) p with
  | c :: ps, Some (s, l) =>
    let al' := alignment_for al in
    let aligned := p mod al' =? 0 in
    let is_top := top_ptr c =? p in
    if (n <=? s) && aligned then
      let c' := if is_top then with_used c (p - PREFIX - memory c) else c in
      (Ptr p, Arena (c' :: ps) (unused a) (page_size a) ((p, n) :: l) (bytes a))
    else if is_top && aligned && (n - s + used c <=? total c) then
      (Ptr p, Arena (with_used c (used c + (n - s)) :: ps) (unused a) (page_size a) ((p, n) :: l) (bytes a))
    else
      match acquire provide n al' (Arena (pages a) (unused a) (page_size a) l (bytes a)) with
      | (Ptr q, a') => (Ptr q, Arena (pages a') (unused a') (page_size a') (live a') (copy (bytes a') q p s))
      | r => (fst r, a)
      end
  | _, _ => (Misuse, a)
  end.
(** dynamic_arena.c3:113-127 reset. *)
Definition reset (a : arena) : answer * arena :=
  (Done, Arena [] (fold_left (fun us p => with_used p 0 :: us) (pages a) (unused a)) (page_size a) [] (bytes a)).
Inductive op := Acquire (n al : Z) | Release (p : Z) | Resize (p n al : Z) | Reset | Store (x v : Z).
Definition step (provide : provider) (o : op) (a : arena) : answer * arena :=
  match o with
  | Acquire n al => acquire provide n al a
  | Release p => release p a
  | Resize p n al => resize provide p n al a
  | Reset => reset a
  | Store x v => (Done, Arena (pages a) (unused a) (page_size a) (live a) (fun y => if y =? x then v else bytes a y))
  end.
