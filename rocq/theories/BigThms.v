(** Big integers (lib/std/math/bigint.c3): C71 to C79. In every theorem [denotes a x] says that [a] is the representation of the integer [x]. *)
From Coq Require Import ZArith List Bool Lia.
From Verif Require Import BigModel BigSpec BigProofs BigProofs2 BigProofs3 BigProofs4 BigProofs5 BigProofs6 BigProofs7 BigProofs8 BigProofs9.
Import ListNotations.
Open Scope Z_scope.

Lemma stops_assert {A} (r : res A) : r = Stop Assert -> stops r.
Proof. intros ->. exists Assert. split; [reflexivity|discriminate]. Qed.
(** The representation of a number, for the examples. *)
Definition of (z : Z) : big := match from_int z with Ok b => b | Stop _ => ZERO end.
Lemma of_spec z : in_range z -> denotes (of z) z.
Proof. intros R. unfold of. destruct (from_int_spec z R) as (b & -> & D). exact D. Qed.
Lemma gives_of r z : gives r z -> in_range z -> r = Ok (of z).
Proof. intros (b & -> & D) R. f_equal. apply (denotes_inj _ _ z D), of_spec, R. Qed.
Lemma range_128 z : - 2 ^ 128 <= z <= 2 ^ 128 -> in_range z.
Proof. intros H. unfold in_range. assert (2 ^ 128 < Half) by (rewrite Half_2; apply Z.pow_lt_mono_r; lia). lia. Qed.
Ltac small := apply range_128; lia.

(** ** C71: sums, differences, order and construction *)
Theorem C71_add a b x y : denotes a x -> denotes b y -> (in_range (x + y) -> gives (add a b) (x + y)) /\ (~ in_range (x + y) -> stops (add a b)).
Proof. intros Da Db. destruct (add_spec a b x y Da Db) as [A B]. split; [exact A|]. intros N. apply stops_assert, B, N. Qed.
Print Assumptions C71_add.
Theorem C71_sub a b x y : denotes a x -> denotes b y -> (in_range (x - y) -> gives (sub a b) (x - y)) /\ (~ in_range (x - y) -> stops (sub a b)).
Proof. intros Da Db. destruct (sub_spec a b x y Da Db) as [A B]. split; [exact A|]. intros N. apply stops_assert, B, N. Qed.
Print Assumptions C71_sub.
Theorem C71_negate a x : denotes a x -> (in_range (- x) -> gives (negate a) (- x) /\ gives (unary_minus a) (- x)) /\ (~ in_range (- x) -> stops (negate a) /\ stops (unary_minus a)).
Proof.
  intros D. destruct (negate_spec a x D) as [A B]. pose proof (d_range _ _ D) as R. unfold in_range in *. pose proof Half_pos. unfold unary_minus. rewrite (is_zero_spec a x D). split; intros N.
  - split; [apply A; lia|]. destruct (Z.eqb_spec x 0) as [->|]; [exists a; auto|]. apply A. lia.
  - assert (E : x = - Half) by lia. split; [apply stops_assert, B, E|]. destruct (Z.eqb_spec x 0); [lia|]. apply stops_assert, B, E.
Qed.
Print Assumptions C71_negate.
Theorem C71_order a b x y : denotes a x -> denotes b y ->
  less_than a b = (x <? y) /\ greater_than a b = (y <? x) /\ greater_or_equal a b = (y <=? x) /\ equals a b = (x =? y) /\
  is_zero a = (x =? 0) /\ is_one a = (x =? 1) /\ is_negative a = (x <? 0) /\ is_odd a = Z.odd x.
Proof.
  intros Da Db. destruct (order_spec a b x y Da Db) as [O1 O2].
  repeat split; auto using greater_or_equal_spec, equals_spec, is_zero_spec, is_one_spec, neg_iff, is_odd_spec.
Qed.
Print Assumptions C71_order.
(** Constructed numbers have their value; numbers of 128 bits are always in range. *)
Theorem C71_construct :
  (forall z, in_range z -> gives (from_int z) z) /\ (forall z, 0 <= z < Half -> gives (from_u128 z) z) /\
  (forall ws, (length ws <= 256)%nat -> Forall word ws -> exists z, denotes (from_array ws) z /\ in_range z /\ z mod Full = uval (rev ws)) /\
  (forall a b z, denotes a z -> denotes b z -> a = b).
Proof.
  split; [exact from_int_spec|]. split; [exact from_u128_spec|]. split; [|exact denotes_inj].
  intros ws L F. exists (sgn_of (uval (rev ws))). split; [apply from_array_spec; auto|]. apply sgn_of_range.
  pose proof (uval_bound (rev ws) (Forall_rev F)) as U. rewrite rev_length in U. pose proof (pw_le (length ws) 256 L). rewrite Full_pw. lia.
Qed.
Print Assumptions C71_construct.
Example C71_example : denotes (of 4294967295) 4294967295 /\ denotes (of (-7)) (-7) /\ in_range (4294967295 + -7) /\ less_than (of (-7)) (of 4294967295) = true /\
  add (of 4294967295) (of 1) = Ok (Big (set (zeros 256) 1 1) 2) /\ sub (of 0) (of 1) = Ok (of (-1)) /\ ~ in_range (Half - 1 + 1).
Proof. split; [apply of_spec; small|]. split; [apply of_spec; small|]. split; [small|]. repeat split; try (vm_compute; reflexivity). unfold in_range. lia. Qed.

(** ** C72: products. Every product that is returned is exact, and the result is returned whenever neither it nor an operand is as large as 2^8191. *)
Theorem C72_mult_partial a b x y : denotes a x -> denotes b y ->
  (forall c, mult a b = Ok c -> denotes c (x * y)) /\
  (- Half < x -> - Half < y -> - Half < x * y < Half -> gives (mult a b) (x * y)) /\
  (~ in_range (x * y) -> stops (mult a b)).
Proof.
  intros Da Db. destruct (mult_spec a b x y Da Db) as (M1 & M2 & M3). split; [exact M1|]. split; [intros; apply M3; lia|]. intros N. destruct (mult a b) as [c|w] eqn:E.
  - destruct N. apply (d_range c), M1. reflexivity.
  - exists w. split; [reflexivity|]. apply M2. reflexivity.
Qed.
Print Assumptions C72_mult_partial.
(** Missing: the least number. It is not returned as a product. *)
Theorem C72_mult_refuted : ~ (forall a b x y, denotes a x -> denotes b y -> in_range (x * y) -> gives (mult a b) (x * y)).
Proof.
  intros H. assert (R : in_range (- Half)) by (unfold in_range; pose proof Half_pos; lia). pose proof Half_pos as HP.
  assert (K : forall a b h, denotes a 1 -> denotes b h -> h = - Half -> mult a b = Stop Assert).
  { intros a b h D1 D2 E. unfold mult. rewrite (is_zero_spec _ _ D2), (is_one_spec _ _ D2). destruct (Z.eqb_spec h 0); [lia|]. destruct (Z.eqb_spec h 1); [lia|]. cbv zeta.
    destruct (proj1 (abs_part a 1 D1)) as (a1 & -> & _); [lia|]. cbn [bind]. rewrite (proj2 (abs_part _ _ D2) E). reflexivity. }
  destruct (H (of 1) (of (- Half)) 1 (- Half) (of_spec 1 ltac:(small)) (of_spec _ R)) as (c & Ec & _); [rewrite Z.mul_1_l; exact R|].
  rewrite (K _ _ _ (of_spec 1 ltac:(small)) (of_spec _ R) eq_refl) in Ec. discriminate.
Qed.
Print Assumptions C72_mult_refuted.
Example C72_example : mult (of 340282366920938463463374607431768211455) (of (-18446744073709551615)) = Ok (of (340282366920938463463374607431768211455 * -18446744073709551615)).
Proof. vm_compute. reflexivity. Qed.

(** ** C73: quotients and remainders, for divisors of one word and for dividends smaller than the divisor; the quotient is rounded towards zero, the remainder has the sign of
    the dividend. *)
Theorem C73_division_partial a b x y : denotes a x -> denotes b y -> - Half < x -> - Half < y -> y <> 0 -> (Z.abs y < 2 ^ 32 \/ Z.abs x < Z.abs y) ->
  gives (div a b) (Z.quot x y) /\ gives (mod_ a b) (Z.rem x y).
Proof. intros Da Db Nx Ny Y0 C. split; [apply div_spec|apply mod_spec]; auto; lia. Qed.
Print Assumptions C73_division_partial.
Theorem C73_zero_divisor a b x : denotes a x -> denotes b 0 -> stops (div a b) /\ stops (mod_ a b).
Proof. apply div_zero. Qed.
Print Assumptions C73_zero_divisor.
(** For divisors of several words both the quotient and the remainder can be wrong. *)
Theorem C73_quotient_refuted : ~ (forall a b x y, denotes a x -> denotes b y -> 0 <= x -> 0 < y -> gives (div a b) (x / y)).
Proof.
  intros H. specialize (H _ _ _ _ (of_spec 66291157341591717956415270424 ltac:(small)) (of_spec 12716005052645315947 ltac:(small)) ltac:(lia) ltac:(lia)).
  change (66291157341591717956415270424 / 12716005052645315947) with 5213206275 in H. apply gives_of in H; [|small]. assert (V : div (of 66291157341591717956415270424) (of 12716005052645315947) = Ok (of 918238979)) by (vm_compute; reflexivity). rewrite V in H. revert H. vm_compute. discriminate.
Qed.
Print Assumptions C73_quotient_refuted.
Theorem C73_remainder_refuted : ~ (forall a b x y, denotes a x -> denotes b y -> 0 <= x -> 0 < y -> forall r, mod_ a b = Ok r -> exists z, denotes r z /\ 0 <= z < y).
Proof.
  intros H. assert (V : mod_ (of (30 * 2 ^ 32 + 7)) (of (3 * 2 ^ 32 + 1)) = Ok (of 55340232113754472443)) by (vm_compute; reflexivity).
  destruct (H _ _ _ _ (of_spec (30 * 2 ^ 32 + 7) ltac:(small)) (of_spec (3 * 2 ^ 32 + 1) ltac:(small)) ltac:(lia) ltac:(lia) _ V) as (z & D & Z1).
  rewrite (denotes_uniq _ _ _ D (of_spec 55340232113754472443 ltac:(small))) in Z1. lia.
Qed.
Print Assumptions C73_remainder_refuted.
Example C73_example : div (of (-100000000000000000000000000007)) (of 10) = Ok (of (-10000000000000000000000000000)) /\ mod_ (of (-100000000000000000000000000007)) (of 10) = Ok (of (-7)).
Proof. vm_compute. split; reflexivity. Qed.

(** ** C74: notation. The text written for a number is its notation in the radix, and reading it gives the number back. *)
Theorem C74_text_partial b z radix : denotes b z -> - Half < z -> 2 <= radix <= 36 ->
  exists s, to_string_with_radix b radix = Ok s /\ plain s /\ number radix s = Some z /\ init_string_radix s radix = Ok (Number b).
Proof. intros D N R. apply round_trip; auto. lia. Qed.
Print Assumptions C74_text_partial.
(** Whatever is read is right, and what is refused as malformed is no number. *)
Theorem C74_read_sound s radix : 2 <= radix <= 36 ->
  (forall b, init_string_radix s radix = Ok (Number b) -> exists z, number radix s = Some z /\ denotes b z) /\
  (init_string_radix s radix = Ok MALFORMED -> number radix s = None).
Proof. apply init_string_sound. Qed.
Print Assumptions C74_read_sound.
(** Missing: the least number cannot be written, a minus before zero is an overflow, and the empty text is read outside its bounds. *)
Theorem C74_text_refuted : ~ (forall b z, denotes b z -> exists s, to_string_with_radix b 10 = Ok s).
Proof.
  intros H. assert (R : in_range (- Half)) by (unfold in_range; pose proof Half_pos; lia). pose proof (of_spec _ R) as D. destruct (H _ _ D) as (s & Es). revert Es. pose proof Half_pos. unfold to_string_with_radix. rewrite (is_zero_spec _ _ D). destruct (Z.eqb_spec (- Half) 0); [lia|].
  rewrite (proj2 (abs_part _ _ D) eq_refl). discriminate.
Qed.
Print Assumptions C74_text_refuted.
Theorem C74_read_refuted : number 10 [45; 48] = Some 0 /\ init_string_radix [45; 48] 10 = Ok OVERFLOW /\ init_string_radix [] 10 = Stop Index.
Proof. vm_compute. repeat split. Qed.
Print Assumptions C74_read_refuted.
Example C74_example : to_string_with_radix (of (-3735928559)) 16 = Ok [45; 68; 69; 65; 68; 66; 69; 69; 70] /\ init_string_radix [45; 68; 69; 65; 100; 98; 69; 69; 70] 16 = Ok (Number (of (-3735928559))) /\
  init_string_radix [49; 50; 57] 8 = Ok MALFORMED.
Proof. vm_compute. repeat split. Qed.

(** ** C75: bitwise operations are those of two's complement numbers without bound *)
Theorem C75_bitwise a b x y : denotes a x -> denotes b y ->
  denotes (bit_and a b) (Z.land x y) /\ denotes (bit_or a b) (Z.lor x y) /\ denotes (bit_xor a b) (Z.lxor x y) /\ denotes (bit_negate a) (Z.lnot x).
Proof. intros Da Db. split; [apply bit_and_spec; assumption|]. split; [apply bit_or_spec; assumption|]. split; [apply bit_xor_spec; assumption|apply bit_negate_spec; assumption]. Qed.
Print Assumptions C75_bitwise.
Theorem C75_bitcount a x : denotes a x -> bitcount a = if x =? 0 then 0 else if x <? 0 then 8192 else Z.log2 x + 1.
Proof. apply bitcount_spec. Qed.
Print Assumptions C75_bitcount.
Example C75_example : bit_and (of (-2)) (of 1311768467463790321) = of 1311768467463790320 /\ bit_xor (of (-1)) (of 5) = of (-6) /\ bitcount (of 4294967296) = 33.
Proof. vm_compute. repeat split. Qed.

(** ** C76: shifts. Shifting to the left is multiplication by a power of two when no further word is needed, and always keeps only the words there were. *)
Theorem C76_shift_left_partial a x s : denotes a x -> 0 <= s ->
  (in_range (x * 2 ^ s) -> (x < 0 \/ Z.log2 (x * 2 ^ s) / 32 = Z.log2 x / 32) -> denotes (shl a s) (x * 2 ^ s)) /\
  (0 <= x -> uval (data (shl a s)) = (x * 2 ^ s) mod 2 ^ (32 * (Z.log2 x / 32 + 1))).
Proof.
  intros D Hs. split.
  - intros R C. apply shl_exact; auto. pose proof (Z.mod_pos_bound (x * 2 ^ s) Full Full_pos) as MB. pose proof (Z.pow_pos_nonneg 2 s ltac:(lia) Hs) as P. destruct (Z.lt_ge_cases x 0) as [N|N].
    + destruct (len_bounds a x D) as (B1 & _ & _). cbv zeta in B1. rewrite (mod_Full_range x (d_range _ _ D)) in B1. destruct (Z.ltb_spec x 0); [|lia]. pose proof (d_range _ _ D) as Rx. unfold in_range in Rx. pose proof (d_len _ _ D).
      destruct (Nat.eq_dec (len a) 256) as [->|Ne]; [rewrite <- Full_pw; lia|]. pose proof (pw_le (len a) 255 ltac:(lia)). pose proof Half_top. pose proof Full_Half. lia.
    + destruct C as [C|C]; [lia|]. pose proof (len_words a x D N) as L. unfold in_range in R. pose proof Full_Half. rewrite Z.mod_small by nia. rewrite pw_2, L, <- C.
      destruct (Z.eq_dec (x * 2 ^ s) 0) as [E|E]; [rewrite E; apply Z.pow_pos_nonneg; cbn; lia|]. assert (P2 : 0 < x * 2 ^ s) by nia. pose proof (Z.log2_spec _ P2) as [_ L2]. eapply Z.lt_le_trans; [exact L2|].
      apply Z.pow_le_mono_r; [lia|]. pose proof (Z.div_mod (Z.log2 (x * 2 ^ s)) 32 ltac:(lia)). pose proof (Z.mod_pos_bound (Z.log2 (x * 2 ^ s)) 32 ltac:(lia)). lia.
  - intros N. destruct (shl_facts a x s D Hs) as (_ & _ & E & _ & _). rewrite E, pw_2, (len_words a x D N). rewrite (Z.mod_small x Full); [reflexivity|]. pose proof (d_range _ _ D) as Rx. unfold in_range in Rx. pose proof Full_Half. pose proof Half_pos. lia.
Qed.
Print Assumptions C76_shift_left_partial.
Theorem C76_shift_left_refuted : ~ (forall a x s, denotes a x -> 0 <= s -> in_range (x * 2 ^ s) -> denotes (shl a s) (x * 2 ^ s)).
Proof.
  intros H. specialize (H (of 1) 1 32 (of_spec 1 ltac:(small)) ltac:(lia) ltac:(small)). apply d_value in H. revert H. change (1 * 2 ^ 32) with 4294967296.
  rewrite Z.mod_small; [|pose proof (range_128 4294967296 ltac:(lia)) as R; unfold in_range in R; pose proof Full_Half; lia]. assert (V : uval (data (shl (of 1) 32)) = 0) by (vm_compute; reflexivity). rewrite V. discriminate.
Qed.
Print Assumptions C76_shift_left_refuted.
(** Shifting to the right returns its operand. *)
Theorem C76_shift_right_refuted : ~ (forall a x s, denotes a x -> 0 <= x -> 0 <= s -> denotes (shr a s) (x / 2 ^ s)).
Proof.
  intros H. specialize (H (of 8) 8 2 (of_spec 8 ltac:(small)) ltac:(lia) ltac:(lia)). assert (V : shr (of 8) 2 = of 8) by (vm_compute; reflexivity). rewrite V in H.
  pose proof (denotes_uniq _ _ _ H (of_spec 8 ltac:(small))) as E. vm_compute in E. discriminate.
Qed.
Print Assumptions C76_shift_right_refuted.
Example C76_example : denotes (of 18446744069414584320) 18446744069414584320 /\ shl (of 4294967297) 31 = of (4294967297 * 2 ^ 31) /\ Z.log2 (4294967297 * 2 ^ 31) / 32 = Z.log2 4294967297 / 32.
Proof. split; [apply of_spec; small|]. vm_compute. repeat split. Qed.

(** ** C77: the square root, rounded down *)
Theorem C77_sqrt_partial a x : denotes a x -> (0 < x < 2 ^ 8190 -> gives (sqrt a) (Z.sqrt x)) /\ (2 ^ 8190 <= x -> stops (sqrt a)).
Proof. intros D. split; [apply sqrt_spec, D|apply sqrt_big, D]. Qed.
Print Assumptions C77_sqrt_partial.
(** The root of zero is not the number zero: it is different from zero for the comparisons. *)
Theorem C77_sqrt_refuted : exists r, sqrt (of 0) = Ok r /\ is_zero r = false /\ equals r (of 0) = false /\ forall z, ~ denotes r z.
Proof.
  eexists. split; [vm_compute; reflexivity|]. split; [vm_compute; reflexivity|]. split; [vm_compute; reflexivity|]. intros z D. pose proof (d_len _ _ D) as L. cbn [len] in L. lia.
Qed.
Print Assumptions C77_sqrt_refuted.
Example C77_example : sqrt (of 340282366920938463463374607431768211455) = Ok (of 18446744073709551615).
Proof. vm_compute. reflexivity. Qed.

(** ** C78: greatest common divisor and least common multiple, when one operand has one word *)
Theorem C78_gcd_partial a b x y : denotes a x -> denotes b y -> - Half < x -> - Half < y -> (Z.abs x < 2 ^ 32 \/ Z.abs y < 2 ^ 32) ->
  gives (gcd a b) (Z.gcd x y) /\ ((x <> 0 \/ y <> 0) -> Z.abs (x * y) < Half -> gives (lcm a b) (Z.lcm x y)).
Proof. intros Da Db Nx Ny C. split; [apply gcd_spec; auto; lia|]. intros N L. apply lcm_spec; auto; lia. Qed.
Print Assumptions C78_gcd_partial.
(** With operands of several words the divisor found need not divide the operands; of two zeros there is no least common multiple, the program is stopped. *)
Theorem C78_gcd_refuted : ~ (forall a b x y, denotes a x -> denotes b y -> 0 < x -> 0 < y -> gives (gcd a b) (Z.gcd x y)).
Proof.
  intros H. specialize (H _ _ _ _ (of_spec (3 * 2 ^ 32 + 1) ltac:(small)) (of_spec (30 * 2 ^ 32 + 7) ltac:(small)) ltac:(lia) ltac:(lia)). change (Z.gcd (3 * 2 ^ 32 + 1) (30 * 2 ^ 32 + 7)) with 1 in H.
  apply gives_of in H; [|small]. revert H. vm_compute. discriminate.
Qed.
Print Assumptions C78_gcd_refuted.
Theorem C78_lcm_refuted : lcm (of 0) (of 0) = Stop DivZero. Proof. vm_compute. reflexivity. Qed.
Print Assumptions C78_lcm_refuted.
Example C78_example : gcd (of 100000000000000000000) (of (-360)) = Ok (of 40) /\ lcm (of (-4)) (of 100000000000000000006) = Ok (of 200000000000000000012).
Proof. lazy. split; reflexivity. Qed.

(** ** C79: modular power, for a modulus of one word that has no factor in common with the base *)
Theorem C79_mod_pow_partial a e n x k m : denotes a x -> denotes e k -> denotes n m -> - Half < x -> 0 <= k -> 2 <= Z.abs m < 2 ^ 32 -> Z.gcd x m = 1 ->
  gives (mod_pow a e n) (Z.rem (x ^ k) m).
Proof. intros Da De Dn Nx K M G. apply mod_pow_spec; auto. lia. Qed.
Print Assumptions C79_mod_pow_partial.
Theorem C79_mod_pow_refuted : ~ (forall a e n x k m, denotes a x -> denotes e k -> denotes n m -> 0 <= x -> 0 <= k -> 0 < m -> gives (mod_pow a e n) (x ^ k mod m)).
Proof.
  intros H. destruct (H _ _ _ _ _ _ (of_spec 6 ltac:(small)) (of_spec 2 ltac:(small)) (of_spec 3 ltac:(small)) ltac:(lia) ltac:(lia) ltac:(lia)) as (r & Er & _). revert Er.
  assert (V : mod_pow (of 6) (of 2) (of 3) = Stop Assert) by (lazy; reflexivity). rewrite V. discriminate.
Qed.
Print Assumptions C79_mod_pow_refuted.
Example C79_example : mod_pow (of (-7)) (of 100000000000000000001) (of 4294967291) = Ok (of (-1138711198)) /\ Z.gcd (-7) 4294967291 = 1.
Proof. lazy. split; reflexivity. Qed.
