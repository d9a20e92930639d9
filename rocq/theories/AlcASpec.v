(** The part of the histories of an [ArenaAllocator] about which the positive theorem speaks. [mark()] is the number of bytes in use. *)
From Coq Require Import ZArith Bool List.
From Verif Require Import AlcSpec AlcMem AlcAModel.
Open Scope Z_scope.

Definition arena_owns (s : arena) (p n : Z) : Prop := ar_base s <= p /\ p + n <= ar_base s + ar_len s.
(** A reset to [k] keeps the blocks that end at or before [base + k]. *)
Definition arena_below (s : arena) (k p n : Z) : bool := p + n <=? ar_base s + k.
(** [reset] gets a mark not above the present one (its contract); in safe mode [release] and [resize] are not called while the buffer is
    completely full; and a block is only shrunk if it is the topmost one and already aligned, or if the buffer has room for another
    block of the old size. *)
Definition arena_allow (s : arena) (l : ledger) (o : op) : Prop :=
  match o with
  | Reset k => k <= ar_used s
  | Release _ _ => ar_safe s = true -> ar_used s < ar_len s
  | Resize p n al => (ar_safe s = true -> ar_used s < ar_len s) /\
      forall d, In (p, d) l -> size_of d <= n \/ (p + size_of d = ar_base s + ar_used s /\ aligned_to al p) \/
                               ar_used s + 8 + Z.max 16 al + size_of d <= ar_len s
  | _ => True
  end.
(** Nothing excluded but what the contract of [reset] excludes. *)
Definition arena_all (s : arena) (l : ledger) (o : op) : Prop :=
  match o with Reset k => k <= ar_used s | _ => True end.
