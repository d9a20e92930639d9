From Coq Require Import ZArith Bool List Lia ZifyBool.
From Verif Require Import Word Int128Model Int128Spec.
Import ListNotations.
Open Scope Z_scope.
Ltac Zify.zify_post_hook ::= Z.div_mod_to_equations.

Lemma W_val : W = 18446744073709551616. Proof. reflexivity. Qed.
Lemma p64 : 2 ^ 64 = 18446744073709551616. Proof. reflexivity. Qed.
Lemma p63 : 2 ^ 63 = 9223372036854775808. Proof. reflexivity. Qed.
Lemma p127 : 2 ^ 127 = 170141183460469231731687303715884105728. Proof. reflexivity. Qed.
Lemma p128 : 2 ^ 128 = 340282366920938463463374607431768211456. Proof. reflexivity. Qed.
#[export] Hint Rewrite W_val p64 p63 p127 p128 : consts.
Ltac consts := autorewrite with consts in *.

Lemma w64_word x : word (w64 x).
Proof. unfold word, w64. apply Z.mod_pos_bound. reflexivity. Qed.

Ltac unf := unfold wf128, word, uval, wadd, wsub, wmul, wnot, w64 in *; cbn [high low] in *; consts.

Lemma uval_bounds a : wf128 a -> 0 <= uval a < 2 ^ 128.
Proof. unf. lia. Qed.

Lemma add_spec a b : wf128 a -> wf128 b ->
  wf128 (i128_add a b) /\ uval (i128_add a b) = (uval a + uval b) mod 2 ^ 128.
Proof.
  destruct a as [ah al], b as [bh bl]. unfold i128_add; cbn [high low].
  intros Ha Hb. destruct (Z.ltb_spec (wadd al bl) al); unf; split; try split; lia.
Qed.

Lemma add64_spec a b : wf128 a -> word b ->
  wf128 (i128_add64 a b) /\ uval (i128_add64 a b) = (uval a + b) mod 2 ^ 128.
Proof.
  destruct a as [ah al]. unfold i128_add64; cbn [high low].
  intros Ha Hb. destruct (Z.ltb_spec (wadd al b) al); unf; split; try split; lia.
Qed.

Lemma sub_spec a b : wf128 a -> wf128 b ->
  wf128 (i128_sub a b) /\ uval (i128_sub a b) = (uval a - uval b) mod 2 ^ 128.
Proof.
  destruct a as [ah al], b as [bh bl]. unfold i128_sub; cbn [high low].
  intros Ha Hb. destruct (Z.ltb_spec al (wsub al bl)); unf; split; try split; lia.
Qed.

Lemma sub64_spec a b : wf128 a -> word b ->
  wf128 (i128_sub64 a b) /\ uval (i128_sub64 a b) = (uval a - b) mod 2 ^ 128.
Proof.
  destruct a as [ah al]. unfold i128_sub64; cbn [high low].
  intros Ha Hb. destruct (Z.ltb_spec al (wsub al b)); unf; split; try split; lia.
Qed.

Lemma not_spec a : wf128 a ->
  wf128 (i128_not a) /\ uval (i128_not a) = 2 ^ 128 - 1 - uval a.
Proof. destruct a. unfold i128_not; unf. lia. Qed.

Lemma neg_spec a : wf128 a ->
  wf128 (i128_neg a) /\ uval (i128_neg a) = (- uval a) mod 2 ^ 128.
Proof.
  intros Ha. unfold i128_neg.
  destruct (Z.eqb_spec (low a) 0) as [Hl|Hl]; destruct (Z.eqb_spec (high a) 0) as [Hh|Hh]; cbn [andb].
  1: { split; [exact Ha|]. unfold uval. rewrite Hl, Hh. reflexivity. }
  all: destruct (not_spec a Ha) as [H1 H2];
    destruct (add64_spec (i128_not a) 1 H1) as [H3 H4]; [unf; lia|];
    split; [exact H3|]; rewrite H4, H2; unf; lia.
Qed.

Lemma LO32_mod x : 0 <= x -> LO32 x = x mod 2 ^ 32.
Proof. intros. unfold LO32. change 0xffffffff with (Z.ones 32). apply Z.land_ones. lia. Qed.
Lemma HI32_div x : HI32 x = x / 2 ^ 32.
Proof. unfold HI32, wshr. apply Z.shiftr_div_pow2. lia. Qed.

Lemma mod_unique_w x q r : 0 <= r < W -> x = q * W + r -> x mod W = r.
Proof. intros Hr E. subst x. rewrite Z.add_comm, Z_mod_plus_full. apply Z.mod_small. exact Hr. Qed.

Lemma wadd_small a b : 0 <= a + b < W -> wadd a b = a + b.
Proof. intros. apply Z.mod_small; assumption. Qed.
Lemma wmul_small a b : 0 <= a * b < W -> wmul a b = a * b.
Proof. intros. apply Z.mod_small; assumption. Qed.

Lemma mul_bound a b A B : 0 <= a <= A -> 0 <= b <= B -> 0 <= a * b <= A * B.
Proof. intros. split; [apply Z.mul_nonneg_nonneg; lia | apply Z.mul_le_mono_nonneg; lia]. Qed.

Lemma int64_mult_spec u v : word u -> word v ->
  wf128 (int64_mult u v) /\ uval (int64_mult u v) = u * v.
Proof.
  intros Hu Hv. unfold int64_mult.
  set (B := 2 ^ 32). assert (HB : B = 4294967296) by reflexivity.
  unfold word in Hu, Hv; consts.
  pose (u0 := u mod B). pose (u1 := u / B). pose (v0 := v mod B). pose (v1 := v / B).
  assert (Eu : u = u1 * B + u0) by (unfold u1, u0; rewrite HB; lia).
  assert (Ev : v = v1 * B + v0) by (unfold v1, v0; rewrite HB; lia).
  assert (Bu0 : 0 <= u0 < B) by (unfold u0; rewrite HB; lia).
  assert (Bv0 : 0 <= v0 < B) by (unfold v0; rewrite HB; lia).
  assert (Bu1 : 0 <= u1 < B) by (unfold u1; rewrite HB; lia).
  assert (Bv1 : 0 <= v1 < B) by (unfold v1; rewrite HB; lia).
  rewrite (LO32_mod u), (LO32_mod v) by lia.
  fold B. fold u0 v0.
  change (wshr u 32) with (HI32 u). change (wshr v 32) with (HI32 v).
  rewrite (HI32_div u), (HI32_div v). fold B. fold u1 v1.
  pose proof (mul_bound u0 v0 (B-1) (B-1) ltac:(lia) ltac:(lia)) as M00.
  pose proof (mul_bound u1 v0 (B-1) (B-1) ltac:(lia) ltac:(lia)) as M10.
  pose proof (mul_bound u0 v1 (B-1) (B-1) ltac:(lia) ltac:(lia)) as M01.
  pose proof (mul_bound u1 v1 (B-1) (B-1) ltac:(lia) ltac:(lia)) as M11.
  assert (HBB : (B-1)*(B-1) = 18446744065119617025) by reflexivity.
  rewrite HBB in *.
  assert (Euv : u * v = (u1 * v1) * (B * B) + (u1 * v0 + u0 * v1) * B + u0 * v0)
    by (rewrite Eu, Ev; ring).
  rewrite Euv. clear Euv Eu Ev. unfold wmul.
  generalize dependent (u0 * v0). intros m00 M00.
  generalize dependent (u1 * v0). intros m10 M10.
  generalize dependent (u0 * v1). intros m01 M01.
  generalize dependent (u1 * v1). intros m11 M11.
  assert (HB2 : B * B = 18446744073709551616) by reflexivity. rewrite HB2.
  clearbody u0 u1 v0 v1. clear Bu0 Bu1 Bv0 Bv1 u0 u1 v0 v1 Hu Hv HBB HB2.
  unfold wshl. rewrite Z.shiftl_mul_pow2 by lia. fold B.
  rewrite !HI32_div. fold B.
  unf. rewrite HB in *. clearbody B. clear B HB.
  rewrite !LO32_mod by lia. change (2 ^ 32) with 4294967296.
  lia.
Qed.

Lemma mult_spec a b : wf128 a -> wf128 b ->
  wf128 (i128_mult a b) /\ uval (i128_mult a b) = (uval a * uval b) mod 2 ^ 128.
Proof.
  destruct a as [ah al], b as [bh bl]. intros Ha Hb. unfold i128_mult; cbn [high low].
  destruct (int64_mult_spec al bl) as [Hw Hv]; [unf; lia | unf; lia |].
  set (m := int64_mult al bl) in *. clearbody m.
  split; [unf; split; lia|].
  unfold uval in *; cbn [high low] in *.
  rewrite !Z.mul_add_distr_r, !Z.mul_add_distr_l.
  replace (ah * 2 ^ 64 * (bh * 2 ^ 64) + ah * 2 ^ 64 * bl + (al * (bh * 2 ^ 64) + al * bl))
    with ((high m + ah * bl + al * bh) * 2 ^ 64 + low m + (ah * bh) * 2 ^ 128)
    by (rewrite <- Hv; change (2 ^ 128) with (2 ^ 64 * 2 ^ 64); ring).
  rewrite Z_mod_plus_full.
  unfold wmul. generalize (ah * bl) as x. generalize (al * bh) as y. unf. intros. clear Hv. lia.
Qed.

Lemma mult64_spec a b : wf128 a -> word b ->
  wf128 (i128_mult64 a b) /\ uval (i128_mult64 a b) = (uval a * b) mod 2 ^ 128.
Proof.
  destruct a as [ah al]. intros Ha Hb. unfold i128_mult64; cbn [high low].
  destruct (int64_mult_spec al b) as [Hw Hv]; [unf; lia | unf; lia |].
  set (m := int64_mult al b) in *. clearbody m.
  split; [unf; split; lia|].
  unfold uval in *; cbn [high low] in *.
  rewrite !Z.mul_add_distr_r.
  replace (ah * 2 ^ 64 * b + al * b)
    with ((high m + ah * b) * 2 ^ 64 + low m) by (rewrite <- Hv; ring).
  unfold wmul. generalize (ah * b) as x. unf. intros. clear Hv. lia.
Qed.

(** ** Shifts *)

Lemma small_testbit y n i : 0 <= y < 2 ^ n -> n <= i -> Z.testbit y i = false.
Proof.
  intros Hy Hi. destruct (Z.eq_dec y 0) as [->|Hne]; [apply Z.bits_0|].
  apply Z.bits_above_log2; [lia|].
  assert (Z.log2 y < n) by (apply Z.log2_lt_pow2; lia). lia.
Qed.

Lemma lor_disjoint x y n : 0 <= n -> 0 <= y < 2 ^ n -> Z.lor (x * 2 ^ n) y = x * 2 ^ n + y.
Proof.
  intros Hn Hy.
  assert (HL : Z.land (x * 2 ^ n) y = 0).
  { apply Z.bits_inj'; intros i Hi. rewrite Z.land_spec, Z.bits_0.
    destruct (Z.ltb_spec i n).
    - rewrite Z.mul_pow2_bits_low by lia. reflexivity.
    - rewrite (small_testbit y n i) by lia. apply Bool.andb_false_r. }
  rewrite Z.add_nocarry_lxor by exact HL. symmetry. apply Z.lxor_lor. exact HL.
Qed.

Lemma mod_mul_pow2 x n m : 0 <= n <= m -> (x * 2 ^ n) mod 2 ^ m = (x mod 2 ^ (m - n)) * 2 ^ n.
Proof.
  intros. replace (2 ^ m) with (2 ^ (m - n) * 2 ^ n)
    by (rewrite <- Z.pow_add_r by lia; f_equal; lia).
  apply Zmult_mod_distr_r.
Qed.

Lemma pow_split n m : 0 <= n <= m -> 2 ^ m = 2 ^ n * 2 ^ (m - n).
Proof. intros. rewrite <- Z.pow_add_r by lia. f_equal; lia. Qed.

Lemma combine_bound x y P Q : 0 <= x < Q -> 0 <= y < P -> 0 <= x * P + y < P * Q.
Proof. intros. assert (x * P <= (Q - 1) * P) by (apply Z.mul_le_mono_nonneg_r; lia).
  assert (0 <= x * P) by (apply Z.mul_nonneg_nonneg; lia). lia. Qed.

Lemma pow_pos n : 0 <= n -> 0 < 2 ^ n.
Proof. intros. apply Z.pow_pos_nonneg; lia. Qed.

Lemma shl64_spec a n : wf128 a -> 0 <= n ->
  wf128 (i128_shl64 a n) /\ uval (i128_shl64 a n) = (uval a * 2 ^ n) mod 2 ^ 128.
Proof.
  intros Ha Hn. pose proof (uval_bounds a Ha) as Hb. unfold i128_shl64.
  destruct (Z.eqb_spec n 0) as [->|Hn0].
  { split; [exact Ha|]. rewrite Z.mul_1_r, Z.mod_small; lia. }
  destruct (Z.ltb_spec 127 n) as [H127|H127].
  { split; [unf; lia|]. unfold uval at 1; cbn [high low].
    rewrite (pow_split 128 n) by lia.
    replace (uval a * (2 ^ 128 * 2 ^ (n - 128))) with (uval a * 2 ^ (n - 128) * 2 ^ 128) by ring.
    symmetry. apply Z_mod_mult. }
  destruct (Z.eqb_spec n 64) as [->|Hn64].
  { split; [unf; lia|]. unf. lia. }
  destruct a as [ah al]. destruct Ha as [Hah Hal]. cbn [high low] in *.
  unfold wshl, wshr, w64.
  destruct (Z.ltb_spec 64 n) as [H64|H64]; rewrite ?Z.shiftl_mul_pow2 by lia.
  - split.
    + split; cbn [high low]; [apply w64_word | unf; lia].
    + unfold uval; cbn [high low]. change W with (2 ^ 64).
      replace ((ah * 2 ^ 64 + al) * 2 ^ n) with (al * 2 ^ (n - 64) * 2 ^ 64 + (ah * 2 ^ (n - 64)) * 2 ^ 128)
        by (rewrite (pow_split 64 n) by lia; change (2 ^ 128) with (2 ^ 64 * 2 ^ 64); ring).
      rewrite Z_mod_plus_full. rewrite (mod_mul_pow2 (al * 2 ^ (n - 64)) 64 128) by lia.
      change (128 - 64) with 64. apply Z.add_0_r.
  - rewrite Z.shiftr_div_pow2 by lia. change W with (2 ^ 64).
    rewrite (mod_mul_pow2 ah n 64), (mod_mul_pow2 al n 64) by lia.
    set (P := 2 ^ n). set (Q := 2 ^ (64 - n)).
    assert (HP : 0 < P) by (apply pow_pos; lia).
    assert (HQ : 0 < Q) by (apply pow_pos; lia).
    assert (HPQ : P * Q = 2 ^ 64) by (unfold P, Q; symmetry; apply pow_split; lia).
    assert (Hq : 0 <= al / Q < P).
    { split; [apply Z.div_pos; unf; lia|]. apply Z.div_lt_upper_bound; [lia|]. rewrite Z.mul_comm, HPQ. apply Hal. }
    unfold P. rewrite lor_disjoint by (fold P; lia). fold P.
    pose proof (Z.mod_pos_bound ah Q HQ) as Mah. pose proof (Z.mod_pos_bound al Q HQ) as Mal.
    pose proof (Z.div_mod al Q ltac:(lia)) as Dal.
    pose proof (Z.div_mod ah Q ltac:(lia)) as Dah.
    pose proof (combine_bound (ah mod Q) (al / Q) P Q Mah Hq) as BX.
    pose proof (combine_bound (al mod Q) 0 P Q Mal ltac:(lia)) as BY.
    rewrite HPQ in BX, BY. rewrite Z.add_0_r in BY.
    split.
    + split; cbn [high low]; unfold word; change W with (2 ^ 64); assumption.
    + unfold uval; cbn [high low].
      apply Z.mod_unique_pos with (q := ah / Q).
      * revert BX BY. generalize (ah mod Q * P + al / Q) (al mod Q * P). consts. clear. intros. lia.
      * change (2 ^ 128) with (2 ^ 64 * 2 ^ 64). rewrite <- HPQ.
        rewrite Dah at 1. rewrite Dal at 1. ring.
Qed.

Lemma lshr64_spec a n : wf128 a -> 0 <= n ->
  wf128 (i128_lshr64 a n) /\ uval (i128_lshr64 a n) = uval a / 2 ^ n.
Proof.
  intros Ha Hn. pose proof (uval_bounds a Ha) as Hb. unfold i128_lshr64.
  destruct (Z.eqb_spec n 0) as [->|Hn0].
  { split; [exact Ha|]. rewrite Z.div_1_r; reflexivity. }
  destruct (Z.ltb_spec 127 n) as [H127|H127].
  { split; [unf; lia|]. unfold uval at 1; cbn [high low].
    symmetry. apply Z.div_small. split; [lia|].
    apply Z.lt_le_trans with (2 ^ 128); [lia|]. apply Z.pow_le_mono_r; lia. }
  destruct (Z.eqb_spec n 64) as [->|Hn64].
  { split; [unf; lia|]. unf. lia. }
  destruct a as [ah al]. destruct Ha as [Hah Hal]. cbn [high low] in *.
  unfold wshl, wshr, w64.
  destruct (Z.ltb_spec 64 n) as [H64|H64];
    rewrite ?Z.shiftl_mul_pow2 by lia; rewrite !Z.shiftr_div_pow2 by lia.
  - pose proof (pow_pos (n - 64) ltac:(lia)).
    split.
    + split; cbn [high low]; [unf; lia |].
      split; [apply Z.div_pos; unf; lia|].
      apply Z.div_lt_upper_bound; [lia|]. unf; nia.
    + unfold uval; cbn [high low].
      rewrite (pow_split 64 n) by lia. rewrite <- Z.div_div by (try lia; apply pow_pos; lia).
      replace ((ah * 2 ^ 64 + al) / 2 ^ 64) with ah by (unf; lia). reflexivity.
  - change W with (2 ^ 64). rewrite (mod_mul_pow2 ah (64 - n) 64) by lia.
    replace (64 - (64 - n)) with n by lia.
    set (P := 2 ^ n). set (Q := 2 ^ (64 - n)).
    assert (HP : 0 < P) by (apply pow_pos; lia).
    assert (HQ : 0 < Q) by (apply pow_pos; lia).
    assert (HPQ : P * Q = 2 ^ 64) by (unfold P, Q; symmetry; apply pow_split; lia).
    assert (Hq : 0 <= al / P < Q).
    { split; [apply Z.div_pos; unf; lia|]. apply Z.div_lt_upper_bound; [lia|]. rewrite HPQ. apply Hal. }
    rewrite Z.lor_comm. unfold Q. rewrite lor_disjoint by (fold Q; lia). fold Q.
    pose proof (Z.mod_pos_bound ah P HP) as Mah. pose proof (Z.mod_pos_bound al P HP) as Mal.
    pose proof (Z.div_mod al P ltac:(lia)) as Dal.
    pose proof (Z.div_mod ah P ltac:(lia)) as Dah.
    assert (Hd : 0 <= ah / P < 2 ^ 64).
    { split; [apply Z.div_pos; unf; lia|]. apply Z.div_lt_upper_bound; [lia|]. unf; nia. }
    split.
    + split; cbn [high low]; unfold word; change W with (2 ^ 64); [exact Hd|]. rewrite <- HPQ.
      rewrite (Z.mul_comm P). apply combine_bound; assumption.
    + unfold uval; cbn [high low].
      apply Z.div_unique_pos with (r := al mod P); [lia|].
      rewrite <- HPQ. rewrite Dah at 1. rewrite Dal at 1. ring.
Qed.

Lemma ISNEG_spec x : word x -> ISNEG x = (2 ^ 63 <=? x).
Proof.
  intros Hx. unfold ISNEG, wshr. rewrite Z.shiftr_div_pow2 by lia.
  unf. lia.
Qed.

Lemma sval_alt a : wf128 a -> sval a = if ISNEG (high a) then uval a - 2 ^ 128 else uval a.
Proof.
  intros Ha. unfold sval. rewrite ISNEG_spec by apply Ha.
  destruct a as [h l]. destruct (Z.leb_spec (2 ^ 63) (high (mk128 h l))); destruct (Z.ltb_spec (uval (mk128 h l)) (2 ^ 127)); unf; try lia.
Qed.

Lemma sval_bounds a : wf128 a -> - 2 ^ 127 <= sval a < 2 ^ 127.
Proof. intros Ha. pose proof (uval_bounds a Ha). unfold sval. destruct (Z.ltb_spec (uval a) (2 ^ 127)); consts; lia. Qed.

Lemma sval_mod a : wf128 a -> sval a mod 2 ^ 128 = uval a.
Proof. intros Ha. pose proof (uval_bounds a Ha). unfold sval. destruct (Z.ltb_spec (uval a) (2 ^ 127)); consts; lia. Qed.

Lemma sval_unique a z : wf128 a -> - 2 ^ 127 <= z < 2 ^ 127 -> uval a = z mod 2 ^ 128 -> sval a = z.
Proof. intros Ha Hz E. unfold sval. rewrite E. destruct (Z.ltb_spec (z mod 2 ^ 128) (2 ^ 127)); consts; lia. Qed.

Lemma ashr64_spec a n : wf128 a -> 0 <= n ->
  wf128 (i128_ashr64 a n) /\ sval (i128_ashr64 a n) = sval a / 2 ^ n.
Proof.
  intros Ha Hn. pose proof (uval_bounds a Ha) as Hb.
  unfold i128_ashr64. rewrite ISNEG_spec by apply Ha.
  destruct (Z.eqb_spec n 0) as [->|Hn0].
  { split; [exact Ha|]. rewrite Z.div_1_r; reflexivity. }
  destruct (Z.leb_spec (2 ^ 63) (high a)) as [Hneg|Hneg]; cbn [negb].
  2: { destruct (lshr64_spec a n Ha Hn) as [H1 H2]. split; [exact H1|].
       assert (Hu : sval a = uval a).
       { rewrite sval_alt, ISNEG_spec by (try apply Ha; exact Ha). destruct (Z.leb_spec (2 ^ 63) (high a)); lia. }
       rewrite Hu. apply sval_unique; [exact H1| |].
       - pose proof (sval_bounds a Ha). rewrite Hu in H.
         pose proof (pow_pos n Hn). split.
         + apply Z.le_trans with 0; [lia|]. apply Z.div_pos; lia.
         + apply Z.div_lt_upper_bound; [lia|]. nia.
       - rewrite H2. symmetry. apply Z.mod_small. split; [apply Z.div_pos; [lia|apply pow_pos; lia]|].
         apply Z.div_lt_upper_bound; [apply pow_pos; lia|]. pose proof (pow_pos n Hn). nia. }
  assert (Hs : sval a = uval a - 2 ^ 128).
  { rewrite sval_alt, ISNEG_spec by (try apply Ha; exact Ha). destruct (Z.leb_spec (2 ^ 63) (high a)); lia. }
  rewrite Hs. destruct a as [ah al]. destruct Ha as [Hah Hal]. cbn [high low] in *.
  assert (Hsh : s64 ah = ah - W). { unfold s64. destruct (Z.ltb_spec ah (2 ^ 63)); consts; lia. }
  destruct (Z.ltb_spec 127 n) as [H127|H127].
  { split; [unf; lia|]. unfold sval, uval at 1 2; cbn [high low].
    assert ((uval (mk128 ah al) - 2 ^ 128) / 2 ^ n = -1).
    { symmetry. apply Z.div_unique_pos with (r := uval (mk128 ah al) - 2 ^ 128 + 2 ^ n); [|ring].
      assert (2 ^ 128 <= 2 ^ n) by (apply Z.pow_le_mono_r; lia). lia. }
    rewrite H. reflexivity. }
  destruct (Z.eqb_spec n 64) as [->|Hn64].
  { split; [unf; lia|]. apply sval_unique; unf; try lia. }
  destruct (Z.ltb_spec 64 n) as [H64|H64].
  - rewrite Hsh. rewrite Z.shiftr_div_pow2 by lia.
    set (P := 2 ^ (n - 64)). assert (HP : 0 < P) by (apply pow_pos; lia).
    assert (HD : - W <= (ah - W) / P < 0).
    { split; [apply Z.div_le_lower_bound; unf; nia | apply Z.div_lt_upper_bound; unf; nia]. }
    split; [split; cbn [high low]; [unf; lia| apply w64_word]|].
    apply sval_unique.
    + split; cbn [high low]; [unf; lia| apply w64_word].
    + rewrite (pow_split 64 n) by lia. fold P.
      pose proof (Z.div_le_lower_bound (uval (mk128 ah al) - 2 ^ 128) (2 ^ 64 * P) (-2 ^ 64)) as HH.
      split.
      * transitivity (- 2 ^ 64); [discriminate|]. apply HH; consts; nia.
      * apply Z.lt_le_trans with 0; [|discriminate]. apply Z.div_lt_upper_bound; consts; nia.
    + unfold uval; cbn [high low].
      replace ((ah * 2 ^ 64 + al - 2 ^ 128) / 2 ^ n) with ((ah - W) / P).
      2: { rewrite (pow_split 64 n) by lia. fold P. rewrite <- Z.div_div by (try lia; apply pow_pos; lia).
           f_equal. unf. lia. }
      unf. lia.
  - rewrite Hsh. unfold wshl, wshr, w64. rewrite ?Z.shiftl_mul_pow2 by lia. rewrite !Z.shiftr_div_pow2 by lia.
    change W with (2 ^ 64). rewrite (mod_mul_pow2 ah (64 - n) 64) by lia.
    replace (64 - (64 - n)) with n by lia.
    set (P := 2 ^ n). set (Q := 2 ^ (64 - n)).
    assert (HP : 0 < P) by (apply pow_pos; lia).
    assert (HQ : 0 < Q) by (apply pow_pos; lia).
    assert (HPQ : P * Q = 2 ^ 64) by (unfold P, Q; symmetry; apply pow_split; lia).
    assert (Hq : 0 <= al / P < Q).
    { split; [apply Z.div_pos; unf; lia|]. apply Z.div_lt_upper_bound; [lia|]. rewrite HPQ. apply Hal. }
    rewrite Z.lor_comm. unfold Q. rewrite lor_disjoint by (fold Q; lia). fold Q.
    pose proof (Z.mod_pos_bound ah P HP) as Mah. pose proof (Z.mod_pos_bound al P HP) as Mal.
    pose proof (Z.div_mod al P ltac:(lia)) as Dal.
    pose proof (Z.div_mod ah P ltac:(lia)) as Dah.
    assert (HD : - 2 ^ 64 <= (ah - 2 ^ 64) / P < 0).
    { split; [apply Z.div_le_lower_bound; unf; nia | apply Z.div_lt_upper_bound; unf; nia]. }
    assert (Hwf : wf128 (mk128 (((ah - 2 ^ 64) / P) mod 2 ^ 64) (ah mod P * Q + al / P))).
    { split; cbn [high low]; unfold word; change W with (2 ^ 64); [apply Z.mod_pos_bound; reflexivity|]. rewrite <- HPQ.
      rewrite (Z.mul_comm P). apply combine_bound; assumption. }
    assert (HE : (ah - 2 ^ 64) / P * 2 ^ 64 + (ah mod P * Q + al / P) = (uval (mk128 ah al) - 2 ^ 128) / P).
    { unfold uval; cbn [high low].
      apply Z.div_unique_pos with (r := al mod P); [lia|].
      assert (E1 : (ah - 2 ^ 64) / P = ah / P - Q).
      { rewrite <- HPQ. replace (ah - P * Q) with (ah + (- Q) * P) by ring. rewrite Z.div_add by lia. ring. }
      rewrite E1. change (2 ^ 128) with (2 ^ 64 * 2 ^ 64). rewrite <- HPQ. rewrite Dah at 1. rewrite Dal at 1. ring. }
    split; [exact Hwf|].
    apply sval_unique; [exact Hwf| |].
    + split.
      * apply Z.div_le_lower_bound; [lia|]. pose proof (sval_bounds (mk128 ah al) (conj Hah Hal)). rewrite Hs in H. nia.
      * apply Z.lt_le_trans with 0; [|discriminate]. apply Z.div_lt_upper_bound; lia.
    + rewrite <- HE. unfold uval; cbn [high low]. destruct Hwf as [_ Hlw]; cbn [low] in Hlw.
      unfold word in Hlw. set (X := ah mod P * Q + al / P) in *. set (Y := (ah - 2 ^ 64) / P) in *.
      clearbody X Y. consts. clear HP HQ HPQ Hq Mah Mal Dal Dah HE Hs. lia.
Qed.
