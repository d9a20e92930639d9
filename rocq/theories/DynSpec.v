(** What a program may do with a dynamic arena. *)
From Coq Require Import ZArith Bool List.
From Verif Require Import DynModel.
Import ListNotations.
Local Open Scope Z_scope.

(** The bytes a block takes up, with the size in front of it; the bytes of a piece of memory. *)
Definition in_span (b : block) (x : Z) : Prop := fst b - 8 <= x < fst b + snd b.
Definition in_memory (r : block) (x : Z) : Prop := fst r <= x < fst r + snd r.
(** A backing allocator: memory that is above 0 and new. *)
Definition provides (provide : provider) : Prop := forall n before a, provide n before = Some a -> 0 < a /\ forall r x, In r before -> in_memory r x -> ~ in_memory (a, n) x.
Definition power_of_two (al : Z) : Prop := exists k, 0 <= k /\ al = 2 ^ k.
(** A request as the contracts ask for: a size above 0, no alignment or a power of two. *)
Definition sane (o : op) : Prop := match o with Acquire n al | Resize _ n al => 0 < n /\ (al = 0 \/ power_of_two al) | _ => True end.
(** The block is the last of the current page. *)
Definition is_last (a : arena) (p : Z) : Prop := match pages a, lookup (live a) p with c :: _, Some (s, _) => p + s = memory c + used c | _, _ => False end.
(** The block is the one the current page remembers: the first one made in it. *)
Definition remembered (a : arena) (p : Z) : Prop := match pages a with c :: _ => top_ptr c = p | [] => False end.
Definition size_of (a : arena) (p : Z) : Z := match lookup (live a) p with Some (s, _) => s | None => 0 end.
(** What is left out: releasing or growing the remembered block when it is not the last one, shrinking it, and shrinking a block that has to move. *)
Definition careful (a : arena) (o : op) : Prop :=
  match o with
  | Release p => remembered a p -> is_last a p
  | Resize p n al => (remembered a p -> is_last a p /\ size_of a p < n) /\ (n < size_of a p -> p mod (alignment_for al) = 0)
  | _ => True
  end.
Inductive reach (provide : provider) (size : Z) (m : Z -> Z) : arena -> Prop :=
  | R0 : reach provide size m (arena_init size m)
  | R1 : forall a o, reach provide size m a -> sane o -> careful a o -> fst (step provide o a) <> Misuse -> reach provide size m (snd (step provide o a)).
