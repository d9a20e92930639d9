(** C40: RingBuffer. *)
From Coq Require Import ZArith Bool List Lia ZifyBool.
From Verif Require Import Mach ListAux RingModel RingSpec RingProofs.
Import ListNotations.
Open Scope Z_scope.

(** Any history of push, write, get, and of pop and read on a ring that is not full, acts on the list of the last [n] elements.
    Missing: pop and read on a full ring (below). *)
Theorem C40_ring_partial : forall A (n : nat) (z : A) os vs l, (0 < n)%nat -> Z.of_nat n < 2 ^ 63 -> ideals n [] os = Some (vs, l) ->
  exists r, reals (r_init n z) os = Ok (vs, r).
Proof. intros A n z os vs l H0 Hm E. destruct (history n os (r_init n z) [] vs l (holds_init n z H0 Hm) E) as (r & Er & _). exists r. exact Er. Qed.
Print Assumptions C40_ring_partial.
Example C40_ex : ideals 3 [] [Push 1; Push 2; Pop; Write [3; 4; 5]; Get 0; Get 2] = Some ([Done; Done; Val 2; Done; Val 3; Val 5], [3; 4; 5]).
Proof. reflexivity. Qed.
(** Reading from a full ring is right when the span does not cross the wrap-around point. *)
Theorem C40_read_partial : forall A (r : ring A) l i b, full_as r l -> 0 <= i < zlen l -> zlen l - r_head r <= i \/ i + zlen b <= zlen l - r_head r ->
  let s := firstn (length b) (skipn (Z.to_nat i) l) in r_read r i b = Ok (zlen s, s ++ skipn (length s) b).
Proof. intros A r l i b F Hi Hc. apply read_full; assumption. Qed.
Print Assumptions C40_read_partial.
(** Popping a full ring gives the newest element, except where the head wraps around and the size does not divide 2^64; but the element stays in the ring, as its oldest. *)
Theorem C40_pop_full : forall A (r : ring A) l x, full_as r (l ++ [x]) -> r_head r <> 0 \/ 2 ^ 64 mod zlen (r_buf r) = 0 ->
  exists r', r_pop r = Ok (Some x, r') /\ full_as r' (x :: l).
Proof. intros A r l x F H. apply pop_full; assumption. Qed.
Print Assumptions C40_pop_full.
Example C40_full_ex : exists r, reals (r_init 3 0) [Write [1; 2; 3; 4]] = Ok ([Done], r) /\ full_as r ([2; 3] ++ [4]) /\ r_head r <> 0.
Proof. eexists. split; [vm_compute; reflexivity|]. split; [|discriminate]. exists [4], [2; 3]. vm_compute. repeat split; discriminate. Qed.
(** A popped element is popped again. *)
Theorem C40_pop_refuted : exists r, reals (r_init 2 0) [Push 1; Push 2; Push 3; Pop; Pop; Pop] = Ok ([Done; Done; Done; Val 3; Val 2; Val 3], r).
Proof. eexists. vm_compute. reflexivity. Qed.
Print Assumptions C40_pop_refuted.
(** At the wrap-around the oldest element is returned instead of the newest. *)
Theorem C40_pop_wrap_refuted : exists r, reals (r_init 3 0) [Push 1; Push 2; Push 3; Pop] = Ok ([Done; Done; Done; Val 1], r).
Proof. eexists. vm_compute. reflexivity. Qed.
Print Assumptions C40_pop_wrap_refuted.
(** Reading across the wrap-around point leaves the array. *)
Theorem C40_read_refuted : exists r, reals (r_init 3 0) [Write [1; 2; 3; 4]] = Ok ([Done], r) /\ r_read r 0 [0; 0; 0] = Oob.
Proof. eexists. split; [vm_compute; reflexivity|]. vm_compute. reflexivity. Qed.
Print Assumptions C40_read_refuted.
