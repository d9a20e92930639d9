(** The backing allocator of [OnStackAllocator], [TempAllocator], [BackedArenaAllocator] and [DynamicArenaAllocator]: any allocator that
    keeps the promises of the [Allocator] interface. What it answers is chosen by an arbitrary oracle; an answer that would break a
    promise (overlap with a live region or with the memory the client of the backing allocator has set aside, wrong alignment, outside
    the address space) counts as running out of memory, so all correct backing allocators are covered. Memory that belongs to nobody may
    change arbitrarily at every request to it ([bk_noise]). Regions lie below 2^62. *)
From Coq Require Import ZArith Bool List.
From Verif Require Import AlcSpec AlcMem.
Import ListNotations.
Open Scope Z_scope.

Record backing : Type := Bk { bk_answer : nat -> option Z; bk_noise : nat -> mem; bk_count : nat; bk_live : list (Z * Z) }.
Definition disjointb (p n q k : Z) : bool := (p + n <=? q) || (q + k <=? p).
Definition region_free (p n : Z) (l : list (Z * Z)) : bool := forallb (fun r => disjointb p n (fst r) (snd r)) l.
Definition in_region (x : Z) (l : list (Z * Z)) : bool := existsb (fun r => (fst r <=? x) && (x <? fst r + snd r)) l.
Definition bk_ok (b : backing) (p n al : Z) (l : list (Z * Z)) : bool :=
  (0 <? p) && (p + n <=? 2 ^ 62) && (p mod alignment_for al =? 0) && region_free p n l.
Definition drop_region (p : Z) (l : list (Z * Z)) : list (Z * Z) := filter (fun r => negb (fst r =? p)) l.
Definition stir (b : backing) (l : list (Z * Z)) (m : mem) : mem := fun x => if in_region x l then m x else bk_noise b (bk_count b) x.
Definition bk_with (b : backing) (l : list (Z * Z)) : backing := Bk (bk_answer b) (bk_noise b) (S (bk_count b)) l.
(** [acquire]: the region, the backing allocator after it, the memory after it. *)
Definition bk_acquire (b : backing) (m : mem) (n : Z) (zero : bool) (al : Z) : option Z * backing * mem :=
  let m1 := stir b (bk_live b) m in
  match bk_answer b (bk_count b) with
  | Some p => if bk_ok b p n al (bk_live b) then (Some p, bk_with b ((p, n) :: bk_live b), if zero then mclear m1 p n else m1)
              else (None, bk_with b (bk_live b), m1)
  | None => (None, bk_with b (bk_live b), m1)
  end.
(** [release] of a live region; of anything else it is undefined behaviour. *)
Definition bk_release (b : backing) (m : mem) (p : Z) : option (backing * mem) :=
  if existsb (fun r => fst r =? p) (bk_live b) then Some (bk_with b (drop_region p (bk_live b)), stir b (bk_live b) m) else None.
(** [resize] of a live region of [old] bytes: the leading bytes are kept. *)
Definition bk_resize (b : backing) (m : mem) (p n al : Z) : option (option Z * backing * mem) :=
  match find (fun r => fst r =? p) (bk_live b) with
  | None => None
  | Some (_, old) =>
    let m1 := stir b (bk_live b) m in
    match bk_answer b (bk_count b) with
    | Some q => if bk_ok b q n al (drop_region p (bk_live b))
                then Some (Some q, bk_with b ((q, n) :: drop_region p (bk_live b)), mcopy m1 q p (Z.min old n))
                else Some (None, bk_with b (bk_live b), m1)
    | None => Some (None, bk_with b (bk_live b), m1)
    end
  end.
