(** What the theorems about temporary memory refer to, besides the client's ledger: which memory is the allocators' own, which blocks leaving
    a pool drops, and the part of the histories about which the positive theorem speaks. *)
From Coq Require Import ZArith Bool List.
From Verif Require Import AlcSpec AlcMem AlcBack AlcTModel.
Import ListNotations.
Open Scope Z_scope.

(** The block lies within one region obtained from the backing allocator. *)
Definition pool_owns (s : pools) (p n : Z) : Prop := exists a k, In (a, k) (bk_live (pl_bk s)) /\ a <= p /\ p + n <= a + k.
(** The block belongs to allocator [t]: it is in its memory or in one of its pages. *)
Definition in_temp (p : Z) (t : temp) : bool :=
  ((tm_base t <=? p) && (p <? tm_base t + tm_cap t)) || existsb (fun g => pg_data g =? p) (tm_pages t).
(** Leaving all pools deeper than [k] keeps the blocks that belong to none of them. *)
Definition pool_below (s : pools) (k p n : Z) : bool :=
  negb (existsb (in_temp p) (firstn (length (pl_temps s) - 1 - Z.to_nat k) (pl_temps s))).
(** The histories considered: sizes up to 2^62 and alignments up to 32; pools are left one at a time; a block is resized by the current
    allocator only if it is in the memory of some allocator or in a page of the current one; and the topmost block of the current
    allocator is not resized to a larger alignment than its address has. *)
Definition pool_allow (s : pools) (l : ledger) (o : op) : Prop :=
  match o with
  | Acquire n _ al => n <= 2 ^ 62 /\ al <= 32
  | Resize p n al => n <= 2 ^ 62 /\ al <= 32 /\
      match pl_temps s with
      | [] => False
      | t :: r =>
        ((exists t', In t' (t :: r) /\ tm_base t' <= p < tm_base t' + tm_cap t') \/ exists g, In g (tm_pages t) /\ pg_data g = p) /\
        forall d, In (p, d) l -> p + size_of d = tm_base t + tm_used t -> aligned_to al p
      end
  | Reset k => k + 2 = Z.of_nat (length (pl_temps s))
  | _ => True
  end.
(** The configuration respects the contract of [derive_allocator] (temp_allocator.c3:79-83), with sizes that fit. *)
Definition good_config (min buffer mult : Z) : Prop := 128 < min /\ 0 <= buffer /\ 0 < mult /\ min + buffer <= 2 ^ 60 /\ min * mult <= 2 ^ 60.
(** Nothing excluded but leaving pools that were not entered. *)
Definition pool_all (s : pools) (l : ledger) (o : op) : Prop :=
  match o with Reset k => k < Z.of_nat (length (pl_temps s)) | _ => True end.
