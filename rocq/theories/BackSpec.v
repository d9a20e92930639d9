(** What a program may do with a backed arena. *)
From Coq Require Import ZArith Bool List.
From Verif Require Import BackModel.
Import ListNotations.
Local Open Scope Z_scope.

Definition in_memory (r : Z * Z) (x : Z) : Prop := fst r <= x < fst r + snd r.
(** The bytes a block takes up, with the word in front of it. *)
Definition in_block (b : block) (x : Z) : Prop := ptr b - 8 <= x < ptr b + size b.
(** A backing allocator: memory that is aligned and new. *)
Definition provides (provide : provider) : Prop := forall n al before s, provide n al before = Some s ->
  s mod al = 0 /\ forall r x, In r before -> in_memory r x -> ~ in_memory (s, n) x.
Definition power_of_two (al : Z) : Prop := exists k, 0 <= k /\ al = 2 ^ k.
(** A request as the contracts ask for: a size above 0, no alignment or a power of two. *)
Definition sane (o : op) : Prop := match o with Acquire n al | Resize _ n al => 0 < n /\ (al = 0 \/ power_of_two al) | _ => True end.
(** The alignment is at most the default one, or divides the size. *)
Definition careful (o : op) : Prop := match o with Acquire n al | Resize _ n al => al <= 16 \/ n mod al = 0 | _ => True end.
Inductive reach (safe : bool) (provide : provider) (b cap : Z) (m : Z -> Z) : arena -> Prop :=
  | R0 : reach safe provide b cap m (arena_init b cap m)
  | R1 : forall a o r a', reach safe provide b cap m a -> sane o -> careful o -> step safe provide o a = (r, a') -> r <> Misuse -> r <> Crash -> reach safe provide b cap m a'.
(** The same with a backing allocator that never refused. *)
Inductive served (safe : bool) (provide : provider) (b cap : Z) (m : Z -> Z) : arena -> Prop :=
  | S0 : served safe provide b cap m (arena_init b cap m)
  | S1 : forall a o r a', served safe provide b cap m a -> sane o -> careful o -> step safe provide o a = (r, a') -> r <> Misuse -> r <> Crash -> r <> Refused -> served safe provide b cap m a'.
