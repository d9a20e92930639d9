(** C176: ranges of integers. *)
From Coq Require Import ZArith Bool List Lia ZifyBool.
From Verif Require Import Mach RangeModel RangeSpec RangeProofs.
Import ListNotations.
Local Open Scope Z_scope.

(** C176: indexing and iterating over a Range gives the values it contains, each once and in increasing order, and its length is their number.
    Missing: a Range of int whose ends are 2^31 or more apart, and the Range of all values of a type of 64 bits (below). *)
Theorem C176_range_partial : forall t r, value t (start r) -> value t (end_ r) -> ~ too_far t (end_ r - start r) -> end_ r - start r + 1 < 2 ^ 64 ->
  numbers t (start r) (end_ r) (contains r) (len t r) (get t r).
Proof. exact numbers_len. Qed.
Example C176_range_ex : let r := Range (-128) 127 in value (Int true 8) (start r) /\ value (Int true 8) (end_ r) /\ ~ too_far (Int true 8) (end_ r - start r) /\
  end_ r - start r + 1 < 2 ^ 64 /\ len (Int true 8) r = 256 /\ get (Int true 8) r 129 = Ok 1.
Proof. cbv zeta. repeat split; try (cbn; lia); try (cbn [In]; auto; fail). intros [H _]. discriminate. Qed.
Print Assumptions C176_range_partial.

(** The same for an ExclusiveRange, which leaves out its end. *)
Theorem C176_exclusive_partial : forall t r, value t (start r) -> value t (end_ r) -> ~ too_far t (end_ r - start r) ->
  numbers t (start r) (end_ r - 1) (ex_contains r) (ex_len t r) (ex_get t r).
Proof. exact ex_numbers. Qed.
Example C176_exclusive_ex : let r := Range (- 2 ^ 63) (2 ^ 63 - 1) in value (Int true 64) (start r) /\ value (Int true 64) (end_ r) /\ ~ too_far (Int true 64) (end_ r - start r) /\
  ex_len (Int true 64) r = 2 ^ 64 - 1 /\ ex_get (Int true 64) r (2 ^ 63 + 5) = Ok 5.
Proof. cbv zeta. repeat split; try (cbn; lia); try (cbn [In]; auto; fail). intros [H _]. discriminate. Qed.
Print Assumptions C176_exclusive_partial.

(** These conditions are exact: in every other case the length is not the number of values. *)
Theorem C176_exact : forall t r, value t (start r) -> value t (end_ r) ->
  (len t r = Z.max 0 (end_ r - start r + 1) <-> ~ too_far t (end_ r - start r) /\ end_ r - start r + 1 < 2 ^ 64) /\
  (ex_len t r = Z.max 0 (end_ r - start r) <-> ~ too_far t (end_ r - start r)).
Proof.
  intros t r S E. assert (D : too_far t (end_ r - start r) \/ ~ too_far t (end_ r - start r)).
  { pose proof (far_spec t (end_ r - start r)) as F. destruct (match t with Int true 32 => _ | _ => _ end); [left; apply F; reflexivity | right; intros X; apply F in X; discriminate]. }
  split; split.
  - intros L. destruct (Z.le_gt_cases (2 ^ 64) (end_ r - start r + 1)) as [X | X]; [exfalso; exact (len_wrong t r S E (or_intror X) L)|].
    split; [|exact X]. intros Y. exact (len_wrong t r S E (or_introl Y) L).
  - intros [F L]. apply (numbers_len t r S E F L).
  - intros L F. rewrite (ex_len_wrong t r S E F) in L. destruct F as [_ F]. lia.
  - intros F. replace (Z.max 0 (end_ r - start r)) with (Z.max 0 (end_ r - 1 - start r + 1)) by lia. apply (ex_numbers t r S E F).
Qed.
Print Assumptions C176_exact.

(** The Range of all values of int contains every one of them and has length 0; that from int.min to 0 has more than 2^63 elements by its length,
    and indexing it gives 1, which it does not contain; so it is for ExclusiveRange.  The Range of all values of long is empty too. *)
Theorem C176_refuted : let all := Range (- 2 ^ 31) (2 ^ 31 - 1) in let half := Range (- 2 ^ 31) 0 in let t := Int true 32 in
  value t (start all) /\ value t (end_ all) /\ (forall v, value t v -> contains all v = true) /\ len t all = 0 /\ get t all 0 = Oob /\
  len t half = 2 ^ 64 - 2 ^ 31 + 1 /\ get t half (2 ^ 31 + 1) = Ok 1 /\ contains half 1 = false /\
  ex_get t half (2 ^ 31 + 1) = Ok 1 /\ ex_contains half 1 = false /\
  len (Int true 64) (Range (- 2 ^ 63) (2 ^ 63 - 1)) = 0.
Proof.
  cbv zeta. repeat split; try (cbn; lia); try (cbn [In]; auto; fail).
  intros v [_ V]. unfold contains. cbn in *. lia.
Qed.
Print Assumptions C176_refuted.
