(** C47: countingsort. *)
From Coq Require Import ZArith Bool List Lia Permutation.
From Verif Require Import Word Mach SortModel SortSpec SortProofs CSortModel CSortProofs2.
Import ListNotations.
Open Scope Z_scope.

(** For a key of [w] bytes whose values are the unsigned ones (or the non-negative ones of a
    signed key type), countingsort terminates within its recursion, stays inside the list, and
    leaves a permutation of it in ascending order of the keys. *)
Theorem C47_countingsort_partial : forall (A : Type) (key : A -> Z) (w : Z) (sgn : bool) (l : list A),
  1 <= w <= 16 ->
  (forall a, In a l -> 0 <= key a < (if sgn then 2 ^ (8 * w - 1) else 2 ^ (8 * w))) ->
  exists l', countingsort key w sgn l = Ok l' /\ Permutation l l' /\
    forall i j a b, (i < j)%nat -> nth_error l' i = Some a -> nth_error l' j = Some b -> key a <= key b.
Proof.
  intros A key w sgn l Hw HK.
  destruct (countingsort_ok key w sgn ltac:(split; [lia|apply Z.le_lt_trans with 16; [lia|reflexivity]]) l) as (l' & E & P & S).
  { apply Forall_forall. intros a Ha. specialize (HK a Ha). unfold KeyOk. destruct sgn; exact HK. }
  exists l'. split; [exact E|]. split; [exact P|]. intros i j a b Hij Hi Hj. apply le_key.
  exact (proj1 (srt_ascending _ l') S i j a b Hij Hi Hj).
Qed.
Print Assumptions C47_countingsort_partial.

Example C47_ex : countingsort (fun x => x) 4 false [70000; 3; 3000000000; 65536; 3; 0] = Ok [0; 3; 3; 65536; 70000; 3000000000].
Proof. vm_compute. reflexivity. Qed.
(** Three hundred elements share their upper bytes, so that the recursive case is met. *)
Example C47_ex_recursive : countingsort (fun x => x) 2 false (map (fun i => Z.of_nat i * 7 mod 256) (seq 0 300))
  = insertionsort (fun a b => (if b <? a then 1 else 0) - (if a <? b then 1 else 0)) 400 (map (fun i => Z.of_nat i * 7 mod 256) (seq 0 300)).
Proof. vm_compute. reflexivity. Qed.

(** With a signed element type and negative values the order comes out wrong: the bytes of a
    negative number are ordered as if unsigned. *)
Theorem C47_signed_refuted : exists l l', (forall a, In a l -> - 2 ^ 31 <= a < 2 ^ 31) /\
  countingsort (fun x => x) 4 true l = Ok l' /\
  exists a b, nth_error l' 0 = Some a /\ nth_error l' 1 = Some b /\ b < a.
Proof.
  exists [-1; 1]. eexists. split; [intros a [<-|[<-|[]]]; split; vm_compute; congruence|].
  split; [vm_compute; reflexivity|]. exists 1, (-1). split; [reflexivity|]. split; [reflexivity|lia].
Qed.
Print Assumptions C47_signed_refuted.
