(** Properties C81-C85: the 128-bit runtime. *)
From Coq Require Import ZArith Bool List Lia.
From Verif Require Import Mach RtModel RtSpec RtProofs RtProofs2 RtProofs3 RtProofs4 RtProofs5.
Open Scope Z_scope.

(** ** C81: division *)
Theorem C81_unsigned : forall a b, is_uint128 a -> is_uint128 b -> b <> 0 -> udivti3 a b = Ok (a / b) /\ umodti3 a b = Ok (a mod b).
Proof. unfold is_uint128. intros a b Ha Hb N. split; [apply (udivmod_ok false a b Ha); lia|apply (udivmod_ok true a b Ha); lia]. Qed.
Print Assumptions C81_unsigned.
(** Towards zero, the remainder with the sign of the dividend; the one quotient that does not fit wraps around. *)
Theorem C81_signed : forall a b, is_int128 a -> is_int128 b -> b <> 0 ->
  modti3 a b = Ok (Z.rem a b) /\ (if (a =? - 2 ^ 127) && (b =? -1) then divti3 a b = Ok (- 2 ^ 127) else is_int128 (Z.quot a b) /\ divti3 a b = Ok (Z.quot a b)).
Proof.
  intros a b Ha Hb N. split; [apply modti3_ok; assumption|]. rewrite divti3_ok by assumption. destruct (Z.eqb_spec a (- 2 ^ 127)) as [->|A]; cbn [andb].
  - destruct (Z.eqb_spec b (-1)) as [->|B]; [reflexivity|]. assert (Q : is_int128 (Z.quot (- 2 ^ 127) b)) by (apply quot_fits; lia || assumption). split; [exact Q|]. rewrite i128_small by exact Q. reflexivity.
  - assert (Q : is_int128 (Z.quot a b)) by (apply quot_fits; lia || assumption). split; [exact Q|]. rewrite i128_small by exact Q. reflexivity.
Qed.
Print Assumptions C81_signed.
(** Dividing by zero never returns. *)
Theorem C81_by_zero : (forall a, is_uint128 a -> udivti3 a 0 = Oob /\ umodti3 a 0 = Oob) /\ (forall a, is_int128 a -> divti3 a 0 = Oob /\ modti3 a 0 = Oob).
Proof. split; intros a H; [split; apply udivmod_zero; exact H|apply signed_zero; exact H]. Qed.
Print Assumptions C81_by_zero.
Example C81_case : udivti3 (2 ^ 127 + 12345) (2 ^ 65 + 3) = Ok (2 ^ 62 - 1) /\ umodti3 (2 ^ 127 + 12345) (2 ^ 65 + 3) = Ok ((2 ^ 127 + 12345) mod (2 ^ 65 + 3)) /\ divti3 (-7) 2 = Ok (-3) /\ modti3 (-7) 2 = Ok (-1) /\
  is_uint128 (2 ^ 127 + 12345) /\ is_int128 (-7).
Proof. unfold is_uint128, is_int128. repeat match goal with |- _ /\ _ => split end; first [lia|vm_compute; reflexivity]. Qed.

(** ** C82: multiplication *)
Theorem C82_multiply : forall a b, is_int128 a -> is_int128 b -> wraps_to (a * b) (multi3 a b).
Proof.
  intros a b _ _. rewrite multi3_ok. split; [apply i128_bd|]. unfold i128. pose proof (Z.div_mod (a * b) (2 ^ 128) ltac:(lia)) as D. cbv zeta. destruct (Z.ltb_spec ((a * b) mod 2 ^ 128) (2 ^ 127)); [exists (- (a * b / 2 ^ 128))|exists (- (a * b / 2 ^ 128) - 1)]; lia.
Qed.
Print Assumptions C82_multiply.
Example C82_case : multi3 (- 2 ^ 70 + 5) (2 ^ 50 + 7) = (- 2 ^ 70 + 5) * (2 ^ 50 + 7) /\ multi3 (2 ^ 100) (2 ^ 27) = - 2 ^ 127.
Proof. split; vm_compute; reflexivity. Qed.

(** ** C83: shifts *)
Theorem C83_logical_right : forall a b, is_uint128 a -> 0 <= b < 128 -> lshrti3 a b = Ok (a / 2 ^ b).
Proof. exact lshrti3_ok. Qed.
Print Assumptions C83_logical_right.
Example C83_logical_case : lshrti3 (2 ^ 127 + 2 ^ 70) 69 = Ok (2 ^ 58 + 2) /\ is_uint128 (2 ^ 127 + 2 ^ 70). Proof. unfold is_uint128. split; [vm_compute; reflexivity|lia]. Qed.
(** Shifting a negative number right must round down; the routine shifts in zeros. *)
Theorem C83_arithmetic_right_refuted : ~ (forall a b, is_int128 a -> 0 <= b < 128 -> ashrti3 a b = Ok (a / 2 ^ b)).
Proof. intros H. specialize (H (-2) 1). unfold is_int128 in H. specialize (H ltac:(lia) ltac:(lia)). vm_compute in H. discriminate. Qed.
Print Assumptions C83_arithmetic_right_refuted.
(** Proved for the numbers that are not negative; missing: the negative ones. *)
Theorem C83_arithmetic_right_partial : forall a b, is_int128 a -> 0 <= a -> 0 <= b < 128 -> ashrti3 a b = Ok (a / 2 ^ b).
Proof. unfold is_int128. intros a b Ha P Hb. apply ashr_nonneg; lia. Qed.
Print Assumptions C83_arithmetic_right_partial.
(** Shifting left by 64 or more must keep the lower half; the routine clears it first. *)
Theorem C83_left_refuted : ~ (forall a b, is_int128 a -> 0 <= b < 128 -> exists r, ashlti3 a b = Ok r /\ wraps_to (a * 2 ^ b) r).
Proof.
  intros H. destruct (H 1 64) as (r & E & W); [unfold is_int128; lia|lia|]. vm_compute in E. injection E as <-. destruct W as (_ & k & K). lia.
Qed.
Print Assumptions C83_left_refuted.
(** Proved for shifts by less than 64; missing: the larger ones, which all give zero. *)
Theorem C83_left_partial : forall a b, is_int128 a -> 0 <= b < 64 -> exists r, ashlti3 a b = Ok r /\ wraps_to (a * 2 ^ b) r.
Proof.
  intros a b Ha Hb. exists (i128 (a * 2 ^ b)). split; [apply ashl_small; assumption|]. split; [apply i128_bd|]. unfold i128. pose proof (Z.div_mod (a * 2 ^ b) (2 ^ 128) ltac:(lia)) as D. cbv zeta.
  destruct (Z.ltb_spec ((a * 2 ^ b) mod 2 ^ 128) (2 ^ 127)); [exists (- (a * 2 ^ b / 2 ^ 128))|exists (- (a * 2 ^ b / 2 ^ 128) - 1)]; lia.
Qed.
Print Assumptions C83_left_partial.
Example C83_case : ashrti3 (2 ^ 126 + 8) 3 = Ok (2 ^ 123 + 1) /\ ashlti3 (-5) 63 = Ok (-5 * 2 ^ 63) /\ is_int128 (2 ^ 126 + 8) /\ is_int128 (-5).
Proof. unfold is_int128. repeat match goal with |- _ /\ _ => split end; first [lia|vm_compute; reflexivity]. Qed.

(** ** C84: integers to floats: the closest, of two equally close the even one, and infinity where no float is large enough *)
Theorem C84_unsigned : forall x, is_uint128 x -> rounds_to 24 8 x (float_from_u128 float_fmt x) /\ rounds_to 53 11 x (float_from_u128 double_fmt x).
Proof. intros x H. split; [apply (float_from_u128_ok float_fmt x good_float H)|apply (float_from_u128_ok double_fmt x good_double H)]. Qed.
Print Assumptions C84_unsigned.
Theorem C84_signed_refuted : ~ (forall x, is_int128 x -> rounds_to 53 11 x (float_from_i128 double_fmt x)).
Proof.
  intros H. destruct (H (- 2 ^ 127)) as (y & M & C); [unfold is_int128; lia|]. change (float_from_i128 double_fmt (- 2 ^ 127)) with 14409267007771901952 in M.
  assert (Y : y = - 2 ^ 127). { destruct (C (-1) 127 ltac:(cbn; lia)) as (D & _). change (down 127) with 1 in D. change (up 127) with (2 ^ 127) in D. lia. }
  subst y. unfold means in M. change (2 ^ 2 ^ (11 - 1) <=? Z.abs (- 2 ^ 127)) with false in M. destruct M as (_ & M). vm_compute in M. discriminate.
Qed.
Print Assumptions C84_signed_refuted.
(** Proved for every `int128` but the least, whose negation does not fit. *)
Theorem C84_signed_partial : forall x, is_int128 x -> x <> - 2 ^ 127 -> rounds_to 24 8 x (float_from_i128 float_fmt x) /\ rounds_to 53 11 x (float_from_i128 double_fmt x).
Proof. unfold is_int128. intros x H N. split; [apply (float_from_i128_ok float_fmt x good_float); lia|apply (float_from_i128_ok double_fmt x good_double); lia]. Qed.
Print Assumptions C84_signed_partial.
Example C84_case : float_from_u128 float_fmt 16777217 = 1266679808 /\ float_from_u128 float_fmt 16777219 = 1266679810 /\ float_from_u128 float_fmt (2 ^ 128 - 1) = 255 * 2 ^ 23 /\ float_from_i128 double_fmt (-3) = 13837309855095848960 /\
  is_uint128 16777217 /\ is_int128 (-3) /\ -3 <> - 2 ^ 127.
Proof. unfold is_uint128, is_int128. repeat match goal with |- _ /\ _ => split end; first [lia|vm_compute; reflexivity]. Qed.

(** ** C85: floats to integers *)
(** Towards zero, and the nearest end of the range for what is outside. *)
Theorem C85_unsigned :
  (forall b, finite 24 8 b -> fixuint float_fmt b = Z.max 0 (Z.min (2 ^ 128 - 1) (truncated 24 8 b))) /\
  (forall b, finite 53 11 b -> fixuint double_fmt b = Z.max 0 (Z.min (2 ^ 128 - 1) (truncated 53 11 b))).
Proof. split; intros b F; [apply (fixuint_ok float_fmt b std_float F)|apply (fixuint_ok double_fmt b std_double F)]. Qed.
Print Assumptions C85_unsigned.
Theorem C85_signed :
  (forall b, finite 24 8 b -> is_int128 (truncated 24 8 b) -> fixint float_fmt b = truncated 24 8 b) /\
  (forall b, finite 53 11 b -> is_int128 (truncated 53 11 b) -> fixint double_fmt b = truncated 53 11 b).
Proof. split; intros b F I; [apply (fixint_ok float_fmt b std_float F I)|apply (fixint_ok double_fmt b std_double F I)]. Qed.
Print Assumptions C85_signed.
(** -2.5, and 2^127, which is just outside of `int128` and comes out negative, while 2^128 comes out as the largest. *)
Example C85_case : finite 53 11 13836184955189006336 /\ truncated 53 11 13836184955189006336 = -2 /\ fixint double_fmt 13836184955189006336 = -2 /\
  fixint double_fmt 5179139571476070400 = - 2 ^ 127 /\ fixint double_fmt 5183643171103440896 = 2 ^ 127 - 1.
Proof. unfold finite. repeat split; vm_compute; congruence. Qed.
