(** C08: integer literals. *)
From Coq Require Import ZArith Bool List Lia.
From Verif Require Import Word Int128Model Int128Spec LitModel LitSpec LitProofs.
Import ListNotations.
Open Scope Z_scope.

(** A literal that is accepted denotes the number its digits spell -- provided a
    decimal one is below 2^128 and a signed one is below 2^127. *)
Theorem C08_literal_value_partial : forall cint b p s suf n,
  is_prefix b p -> s <> [] -> spelled b 0 s = Some n -> is_suffix suf ->
  (b = Dec -> n < 2 ^ 128) -> (signed_literal b suf -> n < 2 ^ 127) ->
  forall c, parse_integer cint (p ++ s ++ suf) = LOk c -> valid c /\ value c = n.
Proof. intros cint b p s suf n H1 H2 H3 H4 H5 H6 c E. pose proof (literal_good cint b p s suf n H1 H2 H3 H4 H5 H6) as G. rewrite E in G. exact G. Qed.
Print Assumptions C08_literal_value_partial.

(** Hexadecimal, octal and binary literals of 2^128 or more are rejected. *)
Theorem C08_too_big_rejected : forall cint b p s suf n, b <> Dec ->
  is_prefix b p -> s <> [] -> spelled b 0 s = Some n -> is_suffix suf ->
  2 ^ 128 <= n -> parse_integer cint (p ++ s ++ suf) = LError.
Proof. exact literal_too_big. Qed.
Print Assumptions C08_too_big_rejected.

(** With a type suffix: accepted, at that type, exactly when the number fits. *)
Theorem C08_sized_literal : forall cint b p s k n, is_prefix b p -> s <> [] -> spelled b 0 s = Some n ->
  n < (if ksigned k then 2 ^ 127 else 2 ^ 128) ->
  (n <= kmax k -> exists c, parse_integer cint (p ++ s ++ suffix_text k) = LOk c /\ itype c = k /\ valid c /\ value c = n) /\
  (kmax k < n -> parse_integer cint (p ++ s ++ suffix_text k) = LError).
Proof. exact literal_sized. Qed.
Print Assumptions C08_sized_literal.

Theorem C08_plain_decimal : forall cint s n, cint = 16 \/ cint = 32 -> s <> [] -> spelled Dec 0 s = Some n -> n < 2 ^ 127 ->
  exists c, parse_integer cint s = LOk c /\ ksigned (itype c) = true /\ valid c /\ value c = n.
Proof. exact literal_dec_plain. Qed.
Print Assumptions C08_plain_decimal.

Theorem C08_plain_pow2 : forall cint b p s n, b <> Dec -> is_prefix b p -> s <> [] -> spelled b 0 s = Some n ->
  0 < digit_count s -> digit_bits b * digit_count s <= 128 ->
  exists c, parse_integer cint (p ++ s) = LOk c /\ ksigned (itype c) = false /\
    digit_bits b * digit_count s <= kbits (itype c) /\ valid c /\ value c = n.
Proof. exact literal_pow2_plain. Qed.
Print Assumptions C08_plain_pow2.

(** Where the unrestricted property fails. *)
(** 340282366920938463463374607431768211455 (2^128 - 1) is accepted as -1 of type int. *)
Definition dec_2_128_minus_1 : list Z :=
  [51;52;48;50;56;50;51;54;54;57;50;48;57;51;56;52;54;51;52;54;51;51;55;52;54;48;55;52;51;49;55;54;56;50;49;49;52;53;53].
Theorem C08_decimal_negative_refuted : exists c,
  spelled Dec 0 dec_2_128_minus_1 = Some (2 ^ 128 - 1) /\
  parse_integer 32 dec_2_128_minus_1 = LOk c /\ itype c = I32 /\ value c = -1.
Proof. eexists. repeat (split; [vm_compute; reflexivity|]). vm_compute; reflexivity. Qed.
Print Assumptions C08_decimal_negative_refuted.

(** 5 followed by 38 zeros exceeds 128 bits and is accepted as another number. *)
Theorem C08_decimal_overflow_refuted : exists c, exists n,
  spelled Dec 0 (53 :: repeat 48 38) = Some n /\ 2 ^ 128 <= n /\
  parse_integer 32 (53 :: repeat 48 38) = LOk c /\ value c <> n.
Proof. do 2 eexists. split; [vm_compute; reflexivity|]. split; [vm_compute; discriminate|]. split; [vm_compute; reflexivity|]. vm_compute. discriminate. Qed.
Print Assumptions C08_decimal_overflow_refuted.

(** 0x followed by 32 F's with suffix i8 is accepted as -1. *)
Theorem C08_hex_signed_refuted : exists c,
  parse_integer 32 ([48; 120] ++ repeat 70 32 ++ suffix_text I8) = LOk c /\ value c = -1.
Proof. eexists. repeat (split; [vm_compute; reflexivity|]). vm_compute; reflexivity. Qed.
Print Assumptions C08_hex_signed_refuted.

(** 5u4: the width 4 passes the suffix check and then aborts the compiler. *)
Theorem C08_suffix_crash_refuted : parse_integer 32 [53; 117; 52] = LCrash.
Proof. vm_compute. reflexivity. Qed.
Print Assumptions C08_suffix_crash_refuted.

(** Only the widths 1, 2 and 4 abort. *)
Theorem C08_no_other_crash : forall cint b p s suf n, cint = 16 \/ cint = 32 ->
  is_prefix b p -> s <> [] -> spelled b 0 s = Some n -> is_suffix suf -> (b = Dec -> n < 2 ^ 128) ->
  match suffix_result suf with Some (_, tb) => tb <> 1 /\ tb <> 2 /\ tb <> 4 | None => True end ->
  parse_integer cint (p ++ s ++ suf) <> LCrash.
Proof. exact literal_no_crash. Qed.
Print Assumptions C08_no_other_crash.

(** 0xFF_00u16 *)
Example C08_ex : exists c, parse_integer 32 ([48; 120] ++ [70; 70; 95; 48; 48] ++ suffix_text U16) = LOk c /\
  spelled Hex 0 [70; 70; 95; 48; 48] = Some 0xFF00 /\ value c = 0xFF00 /\ itype c = U16.
Proof. eexists. repeat (split; [vm_compute; reflexivity|]). vm_compute; reflexivity. Qed.
Example C08_ex_dec : exists c, parse_integer 32 [49; 95; 48; 48; 48] = LOk c /\ value c = 1000.
Proof. eexists. repeat (split; [vm_compute; reflexivity|]). vm_compute; reflexivity. Qed.
