(** Property theorems C01-C05, C07, C09: integer constants of the compiler. *)
From Coq Require Import ZArith Bool List.
From Verif Require Import Word Int128Model Int128Spec Int128Proofs Int128Proofs2 Int128Proofs3 Int128Proofs4.
Import ListNotations.
Open Scope Z_scope.

(** The specification's [wrap] is the value of the type congruent modulo 2^bits. *)
Theorem C01_wrap_is_reduction : forall k z,
  in_kind k (wrap k z) /\ (wrap k z - z) mod 2 ^ kbits k = 0 /\
  (forall v, in_kind k v -> (v - z) mod 2 ^ kbits k = 0 -> v = wrap k z).
Proof. exact (fun k z => conj (wrap_in_kind k z) (conj (wrap_congruent k z) (fun v h1 h2 => eq_sym (wrap_spec_unique k z v h1 h2)))). Qed.
Print Assumptions C01_wrap_is_reduction.

Theorem C01_binary_wraps : forall op a b, valid a -> valid b -> itype a = itype b ->
  valid (fold_arith op a b) /\ itype (fold_arith op a b) = itype a /\
  value (fold_arith op a b) = wrap (itype a) (zarith op (value a) (value b)).
Proof. exact arith_spec. Qed.
Print Assumptions C01_binary_wraps.

Theorem C01_neg_wraps : forall a, valid a ->
  valid (int_neg a) /\ itype (int_neg a) = itype a /\ value (int_neg a) = wrap (itype a) (- value a).
Proof. exact int_neg_spec. Qed.
Print Assumptions C01_neg_wraps.

Theorem C01_not_wraps : forall a, valid a ->
  valid (int_not a) /\ itype (int_not a) = itype a /\ value (int_not a) = wrap (itype a) (Z.lnot (value a)).
Proof. exact int_not_spec. Qed.
Print Assumptions C01_not_wraps.

Theorem C01_add_sub_word : forall a n, valid a -> word n ->
  (valid (int_add64 a n) /\ itype (int_add64 a n) = itype a /\ value (int_add64 a n) = wrap (itype a) (value a + n)) /\
  (valid (int_sub64 a n) /\ itype (int_sub64 a n) = itype a /\ value (int_sub64 a n) = wrap (itype a) (value a - n)).
Proof. exact (fun a n h1 h2 => conj (int_add64_spec a n h1 h2) (int_sub64_spec a n h1 h2)). Qed.
Print Assumptions C01_add_sub_word.

Example valid_ex1 : valid (const I8 (-128)) /\ value (const I8 (-128)) = -128.
Proof. repeat split; vm_compute; first [reflexivity | discriminate]. Qed.
Example valid_ex2 : valid (const I128 (- 2 ^ 127)) /\ value (const I128 (- 2 ^ 127)) = - 2 ^ 127.
Proof. repeat split; vm_compute; first [reflexivity | discriminate]. Qed.
Example valid_ex3 : valid (const U64 (2 ^ 64 - 1)) /\ value (const U64 (2 ^ 64 - 1)) = 2 ^ 64 - 1.
Proof. repeat split; vm_compute; first [reflexivity | discriminate]. Qed.
Example C01_ex_mul : value (int_mul (const I32 70000) (const I32 70000)) = 4900000000 - 2 ^ 32.
Proof. vm_compute. reflexivity. Qed.

(** C02: division. *)
Theorem C02_div_truncates : forall a b, valid a -> valid b -> itype a = itype b -> value b <> 0 ->
  ~ (ksigned (itype a) = true /\ value a = kmin (itype a) /\ value b = -1) ->
  valid (int_div a b) /\ itype (int_div a b) = itype a /\ value (int_div a b) = Z.quot (value a) (value b).
Proof. exact int_div_spec. Qed.
Print Assumptions C02_div_truncates.

Theorem C02_unsigned_division : forall a b, wf128 a -> wf128 b -> uval b <> 0 ->
  wf128 (i128_udiv a b) /\ wf128 (i128_urem a b) /\
  uval (i128_udiv a b) = uval a / uval b /\ uval (i128_urem a b) = uval a mod uval b.
Proof. exact udivrem_spec. Qed.
Print Assumptions C02_unsigned_division.

(** The missing case of C02: the most negative value divided by -1 is not
    reduced into the type; the folded constant is outside the type's range. *)
Theorem C02_min_div_minus_one_refuted : exists a b,
  valid a /\ valid b /\ itype a = itype b /\ value b <> 0 /\
  ~ valid (int_div a b) /\ value (int_div a b) <> wrap (itype a) (Z.quot (value a) (value b)).
Proof.
  exists (const I8 (-128)), (const I8 (-1)).
  repeat split; vm_compute; try reflexivity; try discriminate.
  intros [_ [_ H]]. apply H. reflexivity.
Qed.
Print Assumptions C02_min_div_minus_one_refuted.
Example C02_ex : value (int_div (const I32 (-7)) (const I32 2)) = -3.
Proof. vm_compute. reflexivity. Qed.

(** C03: remainder.  Exact behaviour, then the partial property and its refutation. *)
Theorem C03_rem_exact : forall a b, valid a -> valid b -> itype a = itype b -> value b <> 0 ->
  valid (int_rem a b) /\ itype (int_rem a b) = itype a /\
  value (int_rem a b) = if value b <? 0 then - Z.rem (value a) (value b) else Z.rem (value a) (value b).
Proof. exact int_rem_spec. Qed.
Print Assumptions C03_rem_exact.

Theorem C03_rem_truncates_partial : forall a b, valid a -> valid b -> itype a = itype b -> 0 < value b ->
  valid (int_rem a b) /\ itype (int_rem a b) = itype a /\ value (int_rem a b) = Z.rem (value a) (value b).
Proof. exact rem_partial. Qed.
Print Assumptions C03_rem_truncates_partial.

Theorem C03_rem_truncates_refuted : exists a b, valid a /\ valid b /\ itype a = itype b /\ value b <> 0 /\
  value (int_rem a b) <> Z.rem (value a) (value b) /\
  value (int_add (int_mul (int_div a b) b) (int_rem a b)) <> value a.
Proof.
  exists (const I32 7), (const I32 (-2)). repeat split; vm_compute; first [reflexivity | discriminate].
Qed.
Print Assumptions C03_rem_truncates_refuted.
Example C03_ex : value (int_rem (const I32 (-7)) (const I32 2)) = -1.
Proof. vm_compute. reflexivity. Qed.

(** C04: shifts. *)
Theorem C04_shl : forall a n, valid a -> 0 <= n ->
  valid (int_shl64 a n) /\ itype (int_shl64 a n) = itype a /\
  value (int_shl64 a n) = wrap (itype a) (value a * 2 ^ n).
Proof. exact int_shl_spec. Qed.
Print Assumptions C04_shl.
Theorem C04_shr : forall a n, valid a -> 0 <= n ->
  valid (int_shr64 a n) /\ itype (int_shr64 a n) = itype a /\ value (int_shr64 a n) = value a / 2 ^ n.
Proof. exact int_shr_spec. Qed.
Print Assumptions C04_shr.
Example C04_ex : value (int_shr64 (const I16 (-9)) 2) = -3 /\ value (int_shl64 (const U8 0x81) 3) = 8.
Proof. vm_compute. split; reflexivity. Qed.

(** C05: comparison. *)
Theorem C05_compare : forall a b op, wf128 (ival a) -> wf128 (ival b) ->
  int_comp a b op = zcmp op (value a) (value b).
Proof. exact int_comp_spec. Qed.
Print Assumptions C05_compare.
Theorem C05_compare_word : forall a n op, wf128 (ival a) ->
  (word n -> int_ucomp a n op = zcmp op (value a) n) /\
  (- 2 ^ 63 <= n < 2 ^ 63 -> int_icomp a n op = zcmp op (value a) n).
Proof. exact (fun a n op h => conj (int_ucomp_spec a n op h) (int_icomp_spec a n op h)). Qed.
Print Assumptions C05_compare_word.
Example C05_ex : int_comp (const I8 (-1)) (const U128 (2 ^ 128 - 1)) OpLT = true.
Proof. vm_compute. reflexivity. Qed.

(** C07: fits, conversion, bits needed. *)
Theorem C07_fits : forall a k, wf128 (ival a) -> (int_fits a k = true <-> in_kind k (value a)).
Proof. exact int_fits_spec. Qed.
Print Assumptions C07_fits.
Theorem C07_conv : forall a k, valid a ->
  valid (int_conv a k) /\ itype (int_conv a k) = k /\ value (int_conv a k) = wrap k (value a).
Proof. exact int_conv_spec. Qed.
Print Assumptions C07_conv.
Theorem C07_bits_needed_unsigned : forall a, valid a -> ksigned (itype a) = false ->
  forall n, 0 <= n -> (int_bits_needed a <= n <-> value a < 2 ^ n).
Proof. exact bits_needed_unsigned. Qed.
Print Assumptions C07_bits_needed_unsigned.
Theorem C07_bits_needed_signed : forall a, valid a -> ksigned (itype a) = true ->
  forall n, 1 <= n -> (int_bits_needed a <= n <-> - 2 ^ (n - 1) <= value a < 2 ^ (n - 1)).
Proof. exact bits_needed_signed. Qed.
Print Assumptions C07_bits_needed_signed.
Example C07_ex : value (int_conv (const I16 (-200)) U8) = 56 /\ int_bits_needed (const I32 (-200)) = 9 /\
  int_fits (const I16 (-200)) I8 = false.
Proof. vm_compute. repeat split. Qed.

(** C09: printing and reading. *)
Theorem C09_print : forall a base (use_prefix : bool), wf128 (ival a) -> 2 <= base <= 16 ->
  exists digits, int_to_str a base use_prefix =
    Some ((if value a <? 0 then [45] else @nil Z) ++ (if use_prefix then prefix_of base else []) ++ digits)
    /\ read_digits base 0 digits = Some (Z.abs (value a)) /\ canonical_digits digits.
Proof. exact int_to_str_spec. Qed.
Print Assumptions C09_print.
Theorem C09_read : forall s v, read_digits 10 0 s = Some v ->
  wf128 (i128_from_str s) /\ uval (i128_from_str s) = v mod 2 ^ 128.
Proof. exact from_str_spec. Qed.
Print Assumptions C09_read.
Theorem C09_round_trip : forall a, wf128 (ival a) -> 0 <= value a ->
  exists s, int_to_str a 10 false = Some s /\ wf128 (i128_from_str s) /\ uval (i128_from_str s) = value a.
Proof. exact print_read. Qed.
Print Assumptions C09_round_trip.
Example C09_ex : int_to_str (const I32 (-255)) 16 true = Some [45; 48; 120; 70; 70].
Proof. vm_compute. reflexivity. Qed.
