From Coq Require Import ZArith List Bool Lia ZifyBool.
From Verif Require Import BitAccModel BitAccSpec.
Import ListNotations.
Open Scope Z_scope.

Lemma tb_high w x i : 0 <= x < 2 ^ w -> w <= i -> Z.testbit x i = false.
Proof.
  intros H1 H2. destruct (Z.lt_ge_cases w 0) as [N|N]; [rewrite Z.pow_neg_r in H1 by auto; lia|].
  destruct (Z.eq_dec x 0) as [->|X]; [apply Z.bits_0|]. apply Z.bits_above_log2; [lia|].
  apply Z.log2_lt_pow2; [lia|]. eapply Z.lt_le_trans; [apply H1|]. apply Z.pow_le_mono_r; lia.
Qed.
Lemma tb_small w x : 0 <= w -> 0 <= x -> (forall i, w <= i -> Z.testbit x i = false) -> x < 2 ^ w.
Proof.
  intros W X H. destruct (Z.lt_ge_cases x (2 ^ w)) as [|G]; [auto|].
  assert (P : 0 < 2 ^ w) by (apply Z.pow_pos_nonneg; lia).
  pose proof (H (Z.log2 x)) as L. rewrite Z.bit_log2 in L by lia. discriminate L. apply Z.log2_le_pow2; lia.
Qed.
Lemma tb_mod x w i : 0 <= w -> 0 <= i -> Z.testbit (x mod 2 ^ w) i = (i <? w) && Z.testbit x i.
Proof.
  intros. destruct (i <? w) eqn:E; cbn [andb]; [apply Z.mod_pow2_bits_low; lia|apply Z.mod_pow2_bits_high; lia].
Qed.
Lemma tb_shl w x k i : 0 <= w -> 0 <= k -> 0 <= i -> Z.testbit (shl w x k) i = (i <? w) && Z.testbit x (i - k).
Proof.
  intros. unfold shl. destruct (w <=? k) eqn:E.
  - rewrite Z.bits_0. destruct (i <? w) eqn:F; [|reflexivity]. cbn [andb]. rewrite Z.testbit_neg_r by lia. reflexivity.
  - rewrite tb_mod by lia. f_equal. rewrite Z.shiftl_spec by lia. reflexivity.
Qed.
Lemma tb_lshr w x k i : 0 <= x < 2 ^ w -> 0 <= k -> 0 <= i -> Z.testbit (lshr w x k) i = Z.testbit x (i + k).
Proof.
  intros. unfold lshr. destruct (w <=? k) eqn:E.
  - rewrite Z.bits_0. symmetry. apply (tb_high w); lia.
  - apply Z.shiftr_spec. lia.
Qed.
Lemma tb_ones w i : 0 <= w -> 0 <= i -> Z.testbit (ones w) i = (i <? w).
Proof.
  intros. unfold ones. rewrite <- Z.sub_1_r || idtac. rewrite <- Z.ones_equiv || idtac.
  replace (2 ^ w - 1) with (Z.ones w) by (rewrite Z.ones_equiv; lia).
  destruct (i <? w) eqn:E; [apply Z.ones_spec_low; lia|apply Z.ones_spec_high; lia].
Qed.
Lemma ones_range w : 0 <= w -> 0 <= ones w < 2 ^ w.
Proof. intros. unfold ones. pose proof (Z.pow_pos_nonneg 2 w ltac:(lia) ltac:(lia)). lia. Qed.
Lemma tb_lnot w x i : 0 <= w -> 0 <= i -> Z.testbit (lnot w x) i = xorb (i <? w) (Z.testbit x i).
Proof. intros. unfold lnot. rewrite Z.lxor_spec, tb_ones by lia. reflexivity. Qed.
Lemma pow_pos w : 0 <= w -> 0 < 2 ^ w.
Proof. intros. apply Z.pow_pos_nonneg; lia. Qed.
Lemma signed_add w x : signed w x = x - (if x <? 2 ^ (w - 1) then 0 else 2 ^ w).
Proof. unfold signed. destruct (_ <? _); lia. Qed.
Lemma tb_signed w x i : 0 < w -> 0 <= x < 2 ^ w -> 0 <= i -> Z.testbit (signed w x) i = if i <? w then Z.testbit x i else Z.testbit x (w - 1).
Proof.
  intros W X I. pose proof (pow_pos (w - 1) ltac:(lia)) as P. assert (E : 2 ^ w = 2 * 2 ^ (w - 1)) by (rewrite <- Z.pow_succ_r by lia; f_equal; lia).
  assert (TOP : Z.testbit x (w - 1) = negb (x <? 2 ^ (w - 1))).
  { destruct (x <? 2 ^ (w - 1)) eqn:T; cbn [negb]; [apply (tb_high (w - 1)); lia|]. rewrite Z.testbit_true by lia.
    assert (Q : x / 2 ^ (w - 1) = 1) by (symmetry; apply Z.div_unique with (x - 2 ^ (w - 1)); lia). rewrite Q. reflexivity. }
  assert (M : signed w x mod 2 ^ w = x).
  { unfold signed. destruct (x <? _); [apply Z.mod_small; lia|]. replace (x - 2 ^ w) with (x + (-1) * 2 ^ w) by lia. rewrite Z.mod_add by lia. apply Z.mod_small; lia. }
  destruct (i <? w) eqn:L.
  - rewrite <- M at 2. rewrite tb_mod, L by lia. reflexivity.
  - rewrite TOP. unfold signed. destruct (x <? 2 ^ (w - 1)) eqn:T; cbn [negb]; [apply (tb_high w); lia|].
    replace (x - 2 ^ w) with (- (2 ^ w - x)) by lia. rewrite Z.bits_opp by lia. rewrite (tb_high w (Z.pred (2 ^ w - x))) by lia. reflexivity.
Qed.
Lemma tb_ashr w x k i : 0 < w -> 0 <= x < 2 ^ w -> 0 <= k -> 0 <= i ->
  Z.testbit (ashr w x k) i = (i <? w) && (if i + k <? w then Z.testbit x (i + k) else Z.testbit x (w - 1)).
Proof. intros. unfold ashr. rewrite tb_mod, Z.shiftr_spec, tb_signed by lia. reflexivity. Qed.
Lemma shl_range w x k : 0 <= w -> 0 <= k -> 0 <= shl w x k < 2 ^ w.
Proof.
  intros. pose proof (pow_pos w ltac:(lia)). unfold shl. destruct (_ <=? _); [lia|]. apply Z.mod_pos_bound. lia.
Qed.
Lemma lshr_range w x k : 0 <= x < 2 ^ w -> 0 <= k -> 0 <= lshr w x k < 2 ^ w.
Proof.
  intros H K. unfold lshr. destruct (_ <=? _); [lia|]. rewrite Z.shiftr_div_pow2 by lia. pose proof (pow_pos k ltac:(lia)).
  split; [apply Z.div_pos; lia|]. apply Z.le_lt_trans with x; [|lia]. apply Z.div_le_upper_bound; nia.
Qed.
Lemma mod_range x w : 0 <= w -> 0 <= x mod 2 ^ w < 2 ^ w.
Proof. intros. apply Z.mod_pos_bound. apply pow_pos; auto. Qed.
Lemma land_range w x y : 0 <= w -> 0 <= x < 2 ^ w -> 0 <= y -> 0 <= Z.land x y < 2 ^ w.
Proof.
  intros W X Y. assert (0 <= Z.land x y) by (apply Z.land_nonneg; lia). split; [auto|]. apply tb_small; auto. intros i Hi.
  rewrite Z.land_spec, (tb_high w x) by lia. reflexivity.
Qed.
Lemma lor_range w x y : 0 <= w -> 0 <= x < 2 ^ w -> 0 <= y < 2 ^ w -> 0 <= Z.lor x y < 2 ^ w.
Proof.
  intros W X Y. assert (0 <= Z.lor x y) by (apply Z.lor_nonneg; lia). split; [auto|]. apply tb_small; auto. intros i Hi.
  rewrite Z.lor_spec, (tb_high w x), (tb_high w y) by lia. reflexivity.
Qed.
Lemma lnot_range w x : 0 <= w -> 0 <= x < 2 ^ w -> 0 <= lnot w x < 2 ^ w.
Proof.
  intros W X. pose proof (ones_range w W). assert (0 <= lnot w x) by (unfold lnot; apply Z.lxor_nonneg; lia). split; [auto|].
  apply tb_small; auto. intros i Hi. rewrite tb_lnot, (tb_high w x) by lia. replace (i <? w) with false by lia. reflexivity.
Qed.
Lemma tb_mask w x n i : 0 <= w -> 0 <= x < 2 ^ w -> 0 <= i -> Z.testbit (mask_low_bits w x n) i = (i <? n) && Z.testbit x i.
Proof.
  intros. unfold mask_low_bits. destruct (n <? 1) eqn:E; [rewrite Z.bits_0; replace (i <? n) with false by lia; reflexivity|].
  destruct (w <=? n) eqn:F.
  - destruct (i <? n) eqn:G; [reflexivity|]. cbn [andb]. apply (tb_high w); lia.
  - rewrite Z.land_spec, tb_lshr, tb_ones by (lia || apply ones_range; lia). f_equal. lia.
Qed.
Lemma tb_low_mask w n i : 0 <= w -> 0 <= i -> n <= w -> Z.testbit (low_bitmask w n) i = (i <? n).
Proof.
  intros. unfold low_bitmask. destruct (n <? 1) eqn:E; [rewrite Z.bits_0; lia|]. destruct (w <=? n) eqn:F; [rewrite tb_ones by lia; lia|].
  rewrite tb_lshr, tb_ones by (lia || apply ones_range; lia). lia.
Qed.
Lemma tb_high_mask w n i : 0 <= w -> 0 <= i -> n <= w -> Z.testbit (high_bitmask w n) i = (i <? w) && (w - n <=? i).
Proof.
  intros. unfold high_bitmask. destruct (n <? 1) eqn:E; [rewrite Z.bits_0; lia|]. destruct (w <=? n) eqn:F; [rewrite tb_ones by lia; lia|].
  rewrite tb_lnot, tb_lshr, tb_ones by (lia || apply ones_range; lia). lia.
Qed.
Lemma low_mask_range w n : 0 <= w -> 0 <= low_bitmask w n < 2 ^ w.
Proof.
  intros. unfold low_bitmask. pose proof (ones_range w ltac:(lia)). destruct (n <? 1); [pose proof (pow_pos w); lia|]. destruct (w <=? n) eqn:E; [auto|].
  apply lshr_range; lia.
Qed.
Lemma high_mask_range w n : 0 <= w -> 0 <= high_bitmask w n < 2 ^ w.
Proof.
  intros. unfold high_bitmask. pose proof (ones_range w ltac:(lia)). destruct (n <? 1) eqn:E; [pose proof (pow_pos w); lia|]. destruct (w <=? n) eqn:F; [auto|].
  apply lnot_range; [lia|]. apply lshr_range; lia.
Qed.

(** Bytes. *)
Lemma of_bytes_nonneg l : bytes l -> 0 <= of_bytes l.
Proof. induction 1; cbn [of_bytes]; lia. Qed.
Lemma tb_of_bytes l : bytes l -> forall i, 0 <= i -> Z.testbit (of_bytes l) i = Z.testbit (nth (Z.to_nat (i / 8)) l 0) (i mod 8).
Proof.
  induction 1 as [|b l Hb Hl IH]; intros i Hi; cbn [of_bytes]; [rewrite Z.bits_0; destruct (Z.to_nat (i / 8)); rewrite Z.bits_0; reflexivity|].
  pose proof (Z.div_mod i 8 ltac:(lia)). pose proof (Z.mod_pos_bound i 8 ltac:(lia)).
  destruct (Z.lt_ge_cases i 8) as [L|L].
  - rewrite (Z.div_small i 8), Z.mod_small by lia. cbn [Z.to_nat nth].
    rewrite <- (Z.mod_pow2_bits_low _ 8 i) by lia. replace (b + 2 ^ 8 * of_bytes l) with (b + of_bytes l * 2 ^ 8) by ring. rewrite Z.mod_add by lia.
    rewrite Z.mod_small by lia. reflexivity.
  - replace i with ((i - 8) + 8) at 1 by lia. rewrite <- Z.div_pow2_bits by lia.
    replace (b + 2 ^ 8 * of_bytes l) with (b + of_bytes l * 2 ^ 8) by ring. rewrite Z.div_add, Z.div_small, Z.add_0_l, IH by lia.
    assert (D : i / 8 = (i - 8) / 8 + 1) by (replace i with ((i - 8) + 1 * 8) at 1 by lia; apply Z.div_add; lia).
    assert (M : i mod 8 = (i - 8) mod 8) by (replace i with ((i - 8) + 1 * 8) at 1 by lia; apply Z.mod_add; lia).
    assert (0 <= (i - 8) / 8) by (apply Z.div_pos; lia).
    rewrite D, M, Z2Nat.inj_add by lia. rewrite Nat.add_1_r. reflexivity.
Qed.
Lemma bytes_of_bytes n : forall x, bytes (bytes_of n x).
Proof. induction n; intros; cbn [bytes_of]; constructor; [apply mod_range; lia|apply IHn]. Qed.
Lemma bytes_of_length n : forall x, length (bytes_of n x) = n.
Proof. induction n; intros; cbn [bytes_of length]; auto. Qed.
Lemma of_bytes_of n : forall x, of_bytes (bytes_of n x) = x mod 2 ^ (8 * Z.of_nat n).
Proof.
  induction n as [|n IH]; intros x; [cbn [bytes_of of_bytes]; rewrite Z.mul_0_r, Z.pow_0_r, Z.mod_1_r; reflexivity|].
  cbn [bytes_of of_bytes]. rewrite IH. replace (8 * Z.of_nat (S n)) with (8 + 8 * Z.of_nat n) by lia. rewrite Z.pow_add_r by lia.
  rewrite Z.rem_mul_r by (apply Z.pow_nonzero || apply pow_pos; lia). reflexivity.
Qed.
Lemma bytes_of_of l : bytes l -> bytes_of (length l) (of_bytes l) = l.
Proof.
  induction 1 as [|b l Hb Hl IH]; [reflexivity|]. cbn [length bytes_of of_bytes].
  replace (b + 2 ^ 8 * of_bytes l) with (b + of_bytes l * 2 ^ 8) by ring.
  rewrite Z.mod_add, Z.mod_small, Z.div_add, Z.div_small, Z.add_0_l, IH by lia. reflexivity.
Qed.
Lemma bytes_rev l : bytes l -> bytes (rev l).
Proof. apply Forall_rev. Qed.
Lemma of_bytes_range l : bytes l -> 0 <= of_bytes l < 2 ^ (8 * Z.of_nat (length l)).
Proof.
  intros H. split; [apply of_bytes_nonneg; auto|]. rewrite <- (bytes_of_of l H) at 1. rewrite of_bytes_of. apply mod_range. lia.
Qed.
Lemma int_number_eq bits swap x : 0 <= bits -> bits mod 8 = 0 -> 0 <= x < 2 ^ bits -> int_number bits swap x = if swap then bswap bits x else x.
Proof.
  intros B M X. unfold int_number, number, bswap. destruct swap; [reflexivity|]. rewrite of_bytes_of, Z2Nat.id by (apply Z.div_pos; lia).
  replace (8 * (bits / 8)) with bits by (pose proof (Z.div_mod bits 8 ltac:(lia)); lia). apply Z.mod_small; auto.
Qed.
Lemma bits8 bits : 0 <= bits -> bits mod 8 = 0 -> 8 * Z.of_nat (Z.to_nat (bits / 8)) = bits.
Proof. intros. rewrite Z2Nat.id by (apply Z.div_pos; lia). pose proof (Z.div_mod bits 8 ltac:(lia)). lia. Qed.
Lemma bswap_range bits x : 0 <= bits -> bits mod 8 = 0 -> 0 <= bswap bits x < 2 ^ bits.
Proof.
  intros B M. unfold bswap. pose proof (of_bytes_range _ (bytes_rev _ (bytes_of_bytes (Z.to_nat (bits / 8)) x))) as R.
  rewrite rev_length, bytes_of_length, bits8 in R by auto. exact R.
Qed.
Lemma bswap_twice bits x : 0 <= bits -> bits mod 8 = 0 -> 0 <= x < 2 ^ bits -> bswap bits (bswap bits x) = x.
Proof.
  intros B M X. unfold bswap. set (n := Z.to_nat (bits / 8)). set (l := bytes_of n x).
  assert (L : n = length (rev l)) by (rewrite rev_length; unfold l; rewrite bytes_of_length; reflexivity).
  rewrite L at 1. rewrite bytes_of_of by (apply bytes_rev, bytes_of_bytes). rewrite rev_involutive. unfold l. rewrite of_bytes_of.
  unfold n. rewrite bits8 by auto. apply Z.mod_small; auto.
Qed.
