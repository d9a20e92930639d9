(** Model of lib/std/core/allocators/heap_allocator.c3 (SimpleHeapAllocator).
    The chain of headers from [free_list] is a list of (address of the header, size); the headers of the blocks handed out are a list too.
    Simplification: the headers are not bytes of the memory [bytes], which holds only what the program stores; that headers and
    blocks do not overlap is what is proved.  The variants with an explicit alignment are not modelled. *)
From Coq Require Import ZArith Bool List.
Import ListNotations.
Local Open Scope Z_scope.

Definition usz (x : Z) : Z := x mod 2 ^ 64.
(** mem.c3:283-286 aligned_offset with DEFAULT_MEM_ALIGNMENT = 16. *)
Definition align16 (x : Z) : Z := usz (16 * (usz (x + 16 - 1) / 16)).
Definition HEADER : Z := 16.                       (* Header.sizeof, heap_allocator.c3:201-209 *)
Definition block := (Z * Z)%type.
Record heap := Heap { free : list block; used : list block; regions : list block; bytes : Z -> Z }.
Definition heap_init (m : Z -> Z) : heap := Heap [] [] [] m.       (* heap_allocator.c3:18-22 *)

(** heap_allocator.c3:82-118: the search through the free list; the block taken and the list left. *)
Fixpoint take (l : list block) (ab : Z) : option (block * list block) :=
  match l with
  | [] => None
  | (a, s) :: r =>
    if (ab <=? s) && (s <=? usz (ab + HEADER + 64)) then Some ((a, s), r)
    else if ab <? s then Some ((a, ab), (a + ab + HEADER, usz (s - ab - HEADER)) :: r)
    else match take r ab with Some (b, r') => Some (b, (a, s) :: r') | None => None end
  end.
(** heap_allocator.c3:164-179: the block in front of [current]. *)
Definition forward (b c : block) (r : list block) : block * list block :=
  if fst c =? fst b + HEADER + snd b then ((fst b, snd b + snd c + HEADER), r) else (b, c :: r).
(** heap_allocator.c3:185-198: the block behind [prev]. *)
Definition join (p b : block) (r : list block) : list block :=
  if fst b =? fst p + HEADER + snd p then (fst p, snd p + snd b + HEADER) :: r else p :: b :: r.
(** heap_allocator.c3:152-163: the search for the place, behind [p]. *)
Fixpoint insert_behind (p b : block) (l : list block) : list block :=
  match l with
  | [] => join p b []
  | c :: r => if (fst b <? fst c) && (fst p <? fst b) then let (b', r') := forward b c r in join p b' r' else p :: insert_behind c b r
  end.
(** heap_allocator.c3:134-199 _free. *)
Definition insert (b : block) (l : list block) : list block :=
  match l with
  | [] => [b]
  | c :: r => if fst b <? fst c then let (b', r') := forward b c r in b' :: r' else insert_behind c b r
  end.

(** The memory provider [alloc_fn]: a function of the request and of what it has provided before; [None] is a fault. *)
Definition provider := Z -> list block -> option block.
(** heap_allocator.c3:123-131 add_block. *)
Definition add_block (provide : provider) (ab : Z) (h : heap) : option heap :=
  match provide (usz (ab + HEADER)) (regions h) with
  | None => None
  | Some (a, len) => Some (Heap (insert (a, usz (len - HEADER)) (free h)) (used h) ((a, len) :: regions h) (bytes h))
  end.
Inductive answer := Ptr (p : Z) | Refused | Done | Misuse | Looping.
(** heap_allocator.c3:74-121 _alloc; [fuel] counts the recursive calls. *)
Fixpoint alloc (fuel : nat) (provide : provider) (n : Z) (h : heap) : answer * heap :=
  match fuel with
  | O => (Looping, h)
  | S fuel =>
    let ab := align16 n in
    match (match free h with [] => add_block provide ab h | _ => Some h end) with
    | None => (Refused, h)
    | Some h =>
      match take (free h) ab with
      | Some (b, l) => (Ptr (fst b + HEADER), Heap l (b :: used h) (regions h) (bytes h))
      | None => match add_block provide ab h with None => (Refused, h) | Some h => alloc fuel provide ab h end
      end
    end
  end.
(** The header in front of a pointer. *)
Fixpoint header (l : list block) (p : Z) : option (Z * list block) :=
  match l with
  | [] => None
  | (a, s) :: r => if a =? p - HEADER then Some (s, r) else match header r p with Some (x, r') => Some (x, (a, s) :: r') | None => None end
  end.
Definition release (p : Z) (h : heap) : answer * heap :=
  match header (used h) p with
  | Some (s, u) => (Done, Heap (insert (p - HEADER, s) (free h)) u (regions h) (bytes h))
  | None => (Misuse, h)
  end.
Definition copy (m : Z -> Z) (dst src n : Z) : Z -> Z := fun x => if (dst <=? x) && (x <? dst + n) then m (src + (x - dst)) else m x.
(** heap_allocator.c3:55-65 _realloc. *)
Definition resize (provide : provider) (p n : Z) (h : heap) : answer * heap :=
  match header (used h) p with
  | None => (Misuse, h)
  | Some (s, _) =>
    if n <=? s then (Ptr p, h) else
    match alloc 3 provide n h with
    | (Ptr q, h) =>
      let h := Heap (free h) (used h) (regions h) (copy (bytes h) q p (Z.min s n)) in
      match release p h with (Done, h) => (Ptr q, h) | (_, h) => (Misuse, h) end
    | r => r
    end
  end.
Inductive op := Alloc (n : Z) | Free (p : Z) | Realloc (p n : Z) | Store (x v : Z).
(** What a program does: calls, and stores. *)
Definition step (provide : provider) (o : op) (h : heap) : answer * heap :=
  match o with
  | Alloc n => alloc 3 provide n h
  | Free p => release p h
  | Realloc p n => resize provide p n h
  | Store x v => (Done, Heap (free h) (used h) (regions h) (fun y => if y =? x then v else bytes h y))
  end.
