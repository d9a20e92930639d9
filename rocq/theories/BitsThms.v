(** C41, C42: BitSet, GrowableBitSet and EnumSet. *)
From Coq Require Import ZArith Bool List Lia ZifyBool.
From Verif Require Import Mach ListAux BitsModel BitsSpec BitsProofs.
Import ListNotations.
Open Scope Z_scope.

(** Any set built by the BitSet operations is never out of bounds, answers get as the set it stands for, and counts its members. *)
Theorem C41_bitset : forall size p, 0 < size -> valid size p -> no_diff p ->
  exists d, run_bs size p = Ok d /\ (forall i, 0 <= i < size -> bs_get 32 d i = Ok (mem p i)) /\ bs_cardinality 32 d = card (mem p) (Z.to_nat size).
Proof. exact bitset_ok. Qed.
Print Assumptions C41_bitset.
(** GrowableBitSet, over words of up to 32 bits: no index is out of bounds; len is an upper bound of the members, and exact unless the last word is empty or full. *)
Theorem C41_growable : forall (w : nat) p, 0 < Z.of_nat w <= 32 -> no_bin p ->
  exists d n, run_gb (Z.of_nat w) p = Ok d /\ (forall i, 0 <= i -> gb_get (Z.of_nat w) d i = Ok (mem p i)) /\ gb_len w d = Ok n /\ 0 <= n /\ (forall i, n <= i -> mem p i = false) /\ (n mod Z.of_nat w <> 0 -> mem p (n - 1) = true) /\
    bs_cardinality w d = card (mem p) (Z.to_nat n).
Proof. exact growable_ok. Qed.
Print Assumptions C41_growable.
Example C41_ex : let p := Xor (Set_ (Set_ New 40) 3) (Assign (Set_ New 3) 31 true) in valid 41 p /\ no_diff p /\ card (mem p) 41 = 2 /\ run_bs 41 p = Ok [2 ^ 31; 256] /\
  no_bin (Unset (Set_ (Set_ New 20) 1) 20) /\ (exists d, run_gb 8 (Set_ (Set_ New 20) 1) = Ok d /\ gb_len 8 d = Ok 21).
Proof. cbn [valid no_diff no_bin]. repeat split; try lia. eexists. split; [vm_compute; reflexivity|vm_compute; reflexivity]. Qed.
(** The length that foreach uses reaches past the last valid index. *)
Theorem C41_len_refuted : exists d, run_bs 33 (Set_ New 32) = Ok d /\ 33 < bs_len d.
Proof. eexists. split; [vm_compute; reflexivity|]. vm_compute. reflexivity. Qed.
Print Assumptions C41_len_refuted.

(** EnumSets of at most 32 elements: every operation. *)
Theorem C42_enumset : forall n p v, 0 < n <= 32 -> valid n p -> no_assign p -> 0 <= v < n ->
  exists s, run_es n p = Ok s /\ es_has s v = Ok (mem p v) /\ (exists t, es_remove s v = Ok (mem p v, t)).
Proof.
  intros n p v Hn V N Hv. destruct (run_es_ok n p (or_introl Hn) V N ltac:(lia)) as (s & E & K & B). exists s. split; [exact E|]. destruct s as [x|l]; [|destruct K; lia]. rewrite (es_has_int n x v K Hv). rewrite <- B by lia. split; [reflexivity|].
  destruct (es_remove_int n x v K Hv) as (s' & E' & _). exists s'. exact E'.
Qed.
Print Assumptions C42_enumset.
(** EnumSets of more than 128 elements, without remove: [has] is right for the ordinals that are multiples of eight, and false for all others. *)
Theorem C42_large_partial : forall n p v, 128 < n -> valid n p -> no_assign p -> no_remove p -> 0 <= v < n ->
  exists s, run_es n p = Ok s /\ es_has s v = Ok ((v mod 8 =? 0) && mem p v).
Proof.
  intros n p v Hn V N R Hv. destruct (run_es_ok n p (or_intror Hn) V N (fun _ => R)) as (s & E & K & B). exists s. split; [exact E|]. destruct s as [x|l]; [destruct K; lia|]. rewrite (es_has_arr n l v K Hv). rewrite <- B by lia. reflexivity.
Qed.
Print Assumptions C42_large_partial.
(** An added element is not in the set, and cannot be removed. *)
Theorem C42_large_refuted : exists s, run_es 200 (Set_ New 3) = Ok s /\ es_has s 3 = Ok false /\ es_remove s 3 = Ok (false, s).
Proof. eexists. split; [vm_compute; reflexivity|]. split; vm_compute; reflexivity. Qed.
Print Assumptions C42_large_refuted.
Example C42_ex : let p := Diff (Or (Set_ New 16) (Set_ (Set_ New 31) 2)) (Set_ New 2) in valid 32 p /\ no_assign p /\ mem p 31 = true /\ mem p 2 = false /\ valid 200 p /\ no_remove p.
Proof. cbn [valid no_assign no_remove]. repeat split; lia. Qed.
