(** Sets of indices, built up by operations; what each operation means, and how it is carried out. *)
From Coq Require Import ZArith Bool List.
From Verif Require Import Mach BitsModel.
Import ListNotations.
Open Scope Z_scope.

Inductive prog := New | Set_ (p : prog) (i : Z) | Unset (p : prog) (i : Z) | Assign (p : prog) (i : Z) (b : bool)
  | Xor (p q : prog) | Or (p q : prog) | And (p q : prog) | Diff (p q : prog).
Fixpoint mem (p : prog) (j : Z) : bool :=
  match p with
  | New => false
  | Set_ p i => (j =? i) || mem p j
  | Unset p i => negb (j =? i) && mem p j
  | Assign p i b => if j =? i then b else mem p j
  | Xor p q => xorb (mem p j) (mem q j)
  | Or p q => mem p j || mem q j
  | And p q => mem p j && mem q j
  | Diff p q => mem p j && negb (mem q j)
  end.
(** All indices below [size]. *)
Fixpoint valid (size : Z) (p : prog) : Prop :=
  match p with
  | New => True
  | Set_ p i | Unset p i | Assign p i _ => 0 <= i < size /\ valid size p
  | Xor p q | Or p q | And p q | Diff p q => valid size p /\ valid size q
  end.
(** The number of members below [n]. *)
Definition card (m : Z -> bool) (n : nat) : Z := zlen (filter (fun k => m (Z.of_nat k)) (seq 0 n)).

(** BitSet has no difference. *)
Fixpoint no_diff (p : prog) : Prop :=
  match p with
  | New => True
  | Set_ p _ | Unset p _ | Assign p _ _ => no_diff p
  | Xor p q | Or p q | And p q => no_diff p /\ no_diff q
  | Diff _ _ => False
  end.
Fixpoint run_bs (size : Z) (p : prog) : Res (list Z) :=
  match p with
  | New => Ok (bs_new size)
  | Set_ p i => d <- run_bs size p ;; bs_set 32 d i
  | Unset p i => d <- run_bs size p ;; bs_unset 32 d i
  | Assign p i b => d <- run_bs size p ;; bs_set_bool 32 d i b
  | Xor p q => d <- run_bs size p ;; e <- run_bs size q ;; bs_map2 Z.lxor d e
  | Or p q => d <- run_bs size p ;; e <- run_bs size q ;; bs_map2 Z.lor d e
  | And p q => d <- run_bs size p ;; e <- run_bs size q ;; bs_map2 Z.land d e
  | Diff _ _ => Oob
  end.
(** GrowableBitSet has no binary operations. *)
Fixpoint no_bin (p : prog) : Prop :=
  match p with
  | New => True
  | Set_ p i | Unset p i | Assign p i _ => 0 <= i /\ no_bin p
  | _ => False
  end.
Fixpoint run_gb (w : Z) (p : prog) : Res (list Z) :=
  match p with
  | New => Ok []
  | Set_ p i => d <- run_gb w p ;; gb_set w d i
  | Unset p i => d <- run_gb w p ;; gb_unset w d i
  | Assign p i b => d <- run_gb w p ;; if b then gb_set w d i else gb_unset w d i
  | _ => Oob
  end.
(** EnumSet: [Set_] is add, [Unset] is remove. *)
Fixpoint no_assign (p : prog) : Prop :=
  match p with
  | New => True
  | Set_ p _ | Unset p _ => no_assign p
  | Xor p q | Or p q | And p q | Diff p q => no_assign p /\ no_assign q
  | Assign _ _ _ => False
  end.
Fixpoint no_remove (p : prog) : Prop :=
  match p with
  | New => True
  | Set_ p _ => no_remove p
  | Xor p q | Or p q | And p q | Diff p q => no_remove p /\ no_remove q
  | Unset _ _ | Assign _ _ _ => False
  end.
Fixpoint run_es (n : Z) (p : prog) : Res eset :=
  match p with
  | New => Ok (es_new n)
  | Set_ p i => s <- run_es n p ;; es_add s i
  | Unset p i => s <- run_es n p ;; '(_, s) <- es_remove s i ;; Ok s
  | Or p q => s <- run_es n p ;; t <- run_es n q ;; es_add_all s t
  | And p q => s <- run_es n p ;; t <- run_es n q ;; es_retain_all s t
  | Diff p q => s <- run_es n p ;; t <- run_es n q ;; es_remove_all s t
  | Xor p q => s <- run_es n p ;; t <- run_es n q ;; es_xor_of s t
  | Assign _ _ _ => Oob
  end.
