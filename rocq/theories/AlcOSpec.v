(** The part of the histories of an [OnStackAllocator] about which the positive theorem speaks. [Reset] stands for [free()], which drops
    every block; the allocator has no [mark]. *)
From Coq Require Import ZArith Bool List.
From Verif Require Import AlcSpec AlcMem AlcBack AlcOModel.
Open Scope Z_scope.

Definition onstack_owns (s : onstack) (p n : Z) : Prop :=
  (os_base s <= p /\ p + n <= os_base s + os_len s) \/ In (p, n) (bk_live (os_bk s)).
Definition drops_all (s : onstack) (k p n : Z) : bool := false.
(** Zeroed memory is only asked for when the buffer cannot hold it; a block of the buffer is only shrunk when the buffer has room for
    another one of its old size; sizes stay below 2^62. *)
Definition onstack_allow (s : onstack) (l : ledger) (o : op) : Prop :=
  match o with
  | Acquire n z _ => n <= 2 ^ 62 /\ (z = true -> os_len s < n)
  | Resize p n al => n <= 2 ^ 62 /\
      forall d, In (p, d) l -> size_of d <= n \/ ~ (os_base s <= p < os_base s + os_len s) \/
                               os_used s + 8 + Z.max 16 al + size_of d <= os_len s
  | Mark => False
  | _ => True
  end.
Definition onstack_all (s : onstack) (l : ledger) (o : op) : Prop := match o with Mark => False | _ => True end.
