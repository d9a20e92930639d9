(** What a client of any C3 [Allocator] may rely on.

    A client asks for blocks, resizes and releases them, and stores bytes into the blocks it holds. It keeps a ledger: for each block
    it holds, the address and the bytes it knows to be there. An allocator is honest for a history of requests when every answer keeps
    the ledger true: blocks are aligned as requested, lie in memory the allocator owns, do not overlap the other blocks the client
    holds, are zero when zeroed memory was requested, keep their leading bytes when resized, and no request changes a byte of a block
    the client holds. Nothing here mentions how an allocator works. *)
From Coq Require Import ZArith Bool List Lia.
Import ListNotations.
Open Scope Z_scope.

(** Byte-addressed memory. *)
Definition mem := Z -> Z.
(** The [n] bytes at [a]. *)
Definition bytes_at (m : mem) (a n : Z) : list Z := map (fun i => m (a + Z.of_nat i)) (seq 0 (Z.to_nat n)).

(** The requests of the [Allocator] interface (lib/std/core/mem_allocator.c3:22-42), a store by the client into a block it holds, and
    the [mark]/[reset] pair some allocators add. *)
Inductive op : Type :=
| Acquire (size : Z) (zero : bool) (align : Z)
| Resize (p size align : Z)
| Release (p : Z) (aligned : bool)
| Store (p off v : Z)
| Mark
| Reset (k : Z).
Inductive answer : Type := APtr (p : Z) | AFail | ADone | AMark (k : Z).
(** What a call does: it finishes; it stops the program (failed assertion or bounds check); or it writes memory the allocator does not
    own (undefined behaviour). *)
Inductive outcome (S : Type) : Type := Done (s : S) (a : answer) | Trap | Wild.
Arguments Done {S} s a.
Arguments Trap {S}.
Arguments Wild {S}.

Definition ledger := list (Z * list Z).
Definition size_of (d : list Z) : Z := Z.of_nat (length d).
Definition apart (p n q k : Z) : Prop := p + n <= q \/ q + k <= p.
Definition forget (p : Z) (l : ledger) : ledger := filter (fun b => negb (fst b =? p)) l.
Fixpoint put (d : list Z) (i : nat) (v : Z) : list Z :=
  match d, i with [], _ => [] | _ :: r, O => v :: r | a :: r, S j => a :: put r j v end.
Definition scribble (p off v : Z) (l : ledger) : ledger :=
  map (fun b => if fst b =? p then (fst b, put (snd b) (Z.to_nat off) v) else b) l.

(** The contracts of the interface: positive sizes that fit [usz], alignment zero or a power of two up to 2^28, pointers the client
    holds. *)
Definition align_ok (al : Z) : Prop := al = 0 \/ exists k, 0 <= k <= 28 /\ al = 2 ^ k.
Definition legal (l : ledger) (o : op) : Prop :=
  match o with
  | Acquire n _ al => 0 < n < 2 ^ 64 /\ align_ok al
  | Resize p n al => In p (map fst l) /\ 0 < n < 2 ^ 64 /\ align_ok al
  | Release p _ => In p (map fst l)
  | Store p off v => (exists d, In (p, d) l /\ 0 <= off < size_of d) /\ 0 <= v < 256
  | Mark => True
  | Reset k => 0 <= k
  end.

(** Every block is aligned to 16 bytes (twice the size of a pointer) even when less is asked for. *)
Definition aligned_to (al p : Z) : Prop := p mod 16 = 0 /\ (al <> 0 -> p mod al = 0).

(** The ledger after an answer. [below k] tells which blocks a reset to [k] keeps. *)
Definition updated (below : Z -> Z -> Z -> bool) (l : ledger) (o : op) (a : answer) (m' : mem) : ledger :=
  match o, a with
  | Acquire n _ _, APtr p => (p, bytes_at m' p n) :: l
  | Resize p n _, APtr q => (q, bytes_at m' q n) :: forget p l
  | Release p _, ADone => forget p l
  | Store p off v, ADone => scribble p off v l
  | Reset k, ADone => filter (fun b => below k (fst b) (size_of (snd b))) l
  | _, _ => l
  end.

(** What the answer to one request promises about the memory [m'] after it. *)
Definition fair (below : Z -> Z -> Z -> bool) (l : ledger) (o : op) (a : answer) (m' : mem) : Prop :=
  match o, a with
  | Acquire n z al, APtr p =>
      aligned_to al p /\ (forall q d, In (q, d) l -> apart p n q (size_of d)) /\
      (z = true -> Forall (fun v => v = 0) (bytes_at m' p n))
  | Acquire _ _ _, AFail => True
  | Resize p n al, APtr q =>
      aligned_to al q /\ (forall q' d, In (q', d) (forget p l) -> apart q n q' (size_of d)) /\
      (forall d, In (p, d) l -> bytes_at m' q (Z.min n (size_of d)) = firstn (Z.to_nat n) d)
  | Resize _ _ _, AFail => True
  | Release _ _, ADone => True
  | Store _ _ _, ADone => True
  | Mark, AMark k => 0 <= k /\ forall q d, In (q, d) l -> below k q (size_of d) = true
  | Mark, AFail => True
  | Reset _, ADone => True
  | _, _ => False
  end.

(** The ledger is true of memory [m]: each block holds the bytes the client expects and is owned, and no two blocks overlap. *)
Fixpoint all_apart (l : ledger) : Prop :=
  match l with
  | [] => True
  | (p, d) :: r => Forall (fun b => apart p (size_of d) (fst b) (size_of (snd b))) r /\ all_apart r
  end.
Definition true_of (owns : Z -> Z -> Prop) (m : mem) (l : ledger) : Prop :=
  Forall (fun b => bytes_at m (fst b) (size_of (snd b)) = snd b /\ owns (fst b) (size_of (snd b))) l /\ all_apart l.

Section Honest.
  Context {S : Type}.
  (** The allocator: one request, the memory, which ranges it owns, which blocks a reset in a given state keeps, and (for statements about part of the
      histories) which requests are considered. *)
  Variable step : S -> op -> outcome S.
  Variable mem_of : S -> mem.
  Variable owns : S -> Z -> Z -> Prop.
  Variable below : S -> Z -> Z -> Z -> bool.
  Variable allow : S -> ledger -> op -> Prop.
  Fixpoint honest (l : ledger) (s : S) (ops : list op) : Prop :=
    match ops with
    | [] => True
    | o :: r => legal l o -> allow s l o ->
        exists s' a, step s o = Done s' a /\ fair (below s) l o a (mem_of s') /\
          let l' := updated (below s) l o a (mem_of s') in
          true_of (owns s') (mem_of s') l' /\ honest l' s' r
    end.
End Honest.
