(** What a program may do with a heap, and what a heap must be. *)
From Coq Require Import ZArith Bool List.
From Verif Require Import HeapModel.
Import ListNotations.
Local Open Scope Z_scope.

(** The bytes a block takes up with its header, and the bytes of a region. *)
Definition in_span (b : block) (x : Z) : Prop := fst b <= x < fst b + 16 + snd b.
Definition in_region (r : block) (x : Z) : Prop := fst r <= x < fst r + snd r.
(** A provider: what it gives is aligned, at least as long as asked for, below 2^63, and new. *)
Definition provides (provide : provider) : Prop := forall n before a len, provide n before = Some (a, len) ->
  0 < a /\ a mod 16 = 0 /\ n <= len /\ 16 <= len /\ a + len <= 2 ^ 63 /\ forall r x, In r before -> in_region r x -> ~ in_region (a, len) x.
(** A request whose size, rounded up, and header are below 2^64. *)
Definition sane (o : op) : Prop := match o with Alloc n | Realloc _ n => 0 < n <= 2 ^ 64 - 32 | _ => True end.
(** The states of the programs that free and resize only what they hold. *)
Inductive reach (provide : provider) (m : Z -> Z) : heap -> Prop :=
  | R0 : reach provide m (heap_init m)
  | R1 : forall h o, reach provide m h -> sane o -> fst (step provide o h) <> Misuse -> reach provide m (snd (step provide o h)).
(** How many of the blocks take up the byte [x]. *)
Fixpoint covering (l : list block) (x : Z) : Z :=
  match l with [] => 0 | b :: r => (if (fst b <=? x) && (x <? fst b + 16 + snd b) then 1 else 0) + covering r x end.
(** Sorted by address, with at least one byte that is not free between neighbours. *)
Fixpoint apart (l : list block) : Prop :=
  match l with
  | a :: ((b :: _) as r) => fst a + 16 + snd a < fst b /\ apart r
  | _ => True
  end.
