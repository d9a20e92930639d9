From Coq Require Import ZArith Bool List Lia ZifyBool.
From Verif Require Import Mach RtModel RtProofs.
Open Scope Z_scope.

Lemma shl64_ok a n : 0 <= n < 64 -> shl64 a n = Ok (a mod 2 ^ (64 - n) * 2 ^ n).
Proof.
  intros H. unfold shl64. replace ((0 <=? n) && (n <? 64)) with true by lia. f_equal. unfold u64. rewrite Z.shiftl_mul_pow2 by lia.
  replace (2 ^ 64) with (2 ^ (64 - n) * 2 ^ n) by (rewrite <- Z.pow_add_r by lia; f_equal; lia). apply Z.mul_mod_distr_r; apply Z.pow_nonzero; lia.
Qed.
Lemma shr64_ok a n : 0 <= n < 64 -> shr64 a n = Ok (a / 2 ^ n).
Proof. intros H. unfold shr64. replace ((0 <=? n) && (n <? 64)) with true by lia. rewrite Z.shiftr_div_pow2 by lia. reflexivity. Qed.
Lemma u32_small x : 0 <= x < 2 ^ 32 -> u32 x = x. Proof. apply Z.mod_small. Qed.
Lemma p2 n : 0 <= n -> 0 < 2 ^ n. Proof. intros. apply Z.pow_pos_nonneg; lia. Qed.
(** The middle word of a shifted pair. *)
Lemma mid nl nh s : 0 <= nl < 2 ^ 64 -> 0 <= nh < 2 ^ 64 -> 1 <= s <= 63 ->
  Z.lor (nh mod 2 ^ s * 2 ^ (64 - s)) (nl / 2 ^ s) = nh mod 2 ^ s * 2 ^ (64 - s) + nl / 2 ^ s /\ 0 <= nl / 2 ^ s < 2 ^ (64 - s) /\
  0 <= nh mod 2 ^ s * 2 ^ (64 - s) + nl / 2 ^ s < 2 ^ 64.
Proof.
  intros Hl Hh Hs. pose proof (p2 s ltac:(lia)) as P1. pose proof (p2 (64 - s) ltac:(lia)) as P2. assert (E : 2 ^ 64 = 2 ^ s * 2 ^ (64 - s)) by (rewrite <- Z.pow_add_r by lia; f_equal; lia).
  assert (B : 0 <= nl / 2 ^ s < 2 ^ (64 - s)). { split; [apply Z.div_pos; lia|]. apply Z.div_lt_upper_bound; [lia|]. rewrite <- E. lia. }
  split; [apply lor_disj; lia|]. split; [exact B|]. pose proof (Z.mod_pos_bound nh (2 ^ s) P1). rewrite E. nia.
Qed.
(** n / 2^s and n mod 2^s from the words, s < 64. *)
Lemma pair_shr nl nh s : 0 <= nl < 2 ^ 64 -> 0 <= nh < 2 ^ 64 -> 1 <= s <= 63 ->
  all (nh mod 2 ^ s * 2 ^ (64 - s) + nl / 2 ^ s) (nh / 2 ^ s) = all nl nh / 2 ^ s /\ (all nl nh) mod 2 ^ s = nl mod 2 ^ s.
Proof.
  intros Hl Hh Hs. pose proof (p2 s ltac:(lia)) as P1. assert (E : 2 ^ 64 = 2 ^ (64 - s) * 2 ^ s) by (rewrite <- Z.pow_add_r by lia; f_equal; lia).
  unfold all. rewrite E at 2 3. set (A := 2 ^ s) in *. set (C := 2 ^ (64 - s)) in *. assert (E2 : nh * (C * A) + nl = (nh * C) * A + nl) by ring. rewrite !E2.
  split; [|rewrite Z.add_comm, Z.mod_add by lia; reflexivity]. rewrite Z.div_add_l by lia.
  pose proof (Z.div_mod nh A ltac:(lia)) as D. rewrite E. set (x := nl / A). set (y := nh / A) in *. set (z := nh mod A) in *. rewrite D. ring.
Qed.
Lemma pair_shr64 nl nh s : 0 <= nl < 2 ^ 64 -> 0 <= nh < 2 ^ 64 -> 0 <= s <= 63 ->
  nh / 2 ^ s = all nl nh / 2 ^ (s + 64) /\ (all nl nh) mod 2 ^ (s + 64) = (nh mod 2 ^ s) * 2 ^ 64 + nl.
Proof.
  intros Hl Hh Hs. pose proof (p2 s ltac:(lia)) as P1. replace (s + 64) with (64 + s) by lia. rewrite Z.pow_add_r by lia. unfold all. split.
  - rewrite <- Z.div_div by lia. rewrite Z.div_add_l by lia. rewrite (Z.div_small nl) by lia. rewrite Z.add_0_r. reflexivity.
  - rewrite Z.rem_mul_r by lia. rewrite Z.div_add_l by lia. rewrite (Z.div_small nl) by lia. rewrite Z.add_0_r. rewrite (Z.add_comm (nh * 2 ^ 64)), Z.mod_add by lia. rewrite (Z.mod_small nl) by lia. ring.
Qed.

Lemma bits_lt x : 0 < x -> 2 ^ Z.log2 x <= x < 2 ^ (Z.log2 x + 1).
Proof. intros H. replace (Z.log2 x + 1) with (Z.succ (Z.log2 x)) by lia. apply Z.log2_spec. exact H. Qed.
Lemma log64 x : 0 < x < 2 ^ 64 -> 0 <= Z.log2 x <= 63.
Proof. intros H. split; [apply Z.log2_nonneg|]. assert (Z.log2 x < 64); [apply Z.log2_lt_pow2; lia|lia]. Qed.
Lemma log_all nl nh : 0 <= nl < 2 ^ 64 -> 0 < nh < 2 ^ 64 -> 2 ^ (Z.log2 nh + 64) <= all nl nh < 2 ^ (Z.log2 nh + 65).
Proof.
  intros Hl Hh. pose proof (bits_lt nh ltac:(lia)) as [B1 B2]. pose proof (log64 nh Hh). rewrite Z.pow_add_r by lia. replace (Z.log2 nh + 65) with (Z.log2 nh + 1 + 64) by lia. rewrite (Z.pow_add_r 2 (Z.log2 nh + 1) 64) by lia.
  unfold all. set (P := 2 ^ 64) in *. set (x := 2 ^ Z.log2 nh) in *. set (y := 2 ^ (Z.log2 nh + 1)) in *. nia.
Qed.
(** A number has one bit exactly when it shares none with its predecessor. *)
Lemma pot x : 0 < x < 2 ^ 64 -> (Z.land x (u64 (x - 1)) =? 0) = (x =? 2 ^ Z.log2 x).
Proof.
  intros H. rewrite u64_small by lia. pose proof (bits_lt x ltac:(lia)) as [B1 B2]. pose proof (Z.log2_nonneg x) as L. destruct (Z.eqb_spec x (2 ^ Z.log2 x)) as [E|E].
  - rewrite E. apply Z.eqb_eq. rewrite Z.sub_1_r, <- Z.ones_equiv. rewrite Z.land_ones by lia. apply Z_mod_same_full.
  - apply Z.eqb_neq. intros A. assert (T : Z.testbit (Z.land x (x - 1)) (Z.log2 x) = true); [|rewrite A, Z.bits_0 in T; discriminate].
    rewrite Z.land_spec, Z.bit_log2 by lia. cbn [andb]. replace (Z.log2 x) with (Z.log2 (x - 1)); [apply Z.bit_log2; assert (0 < 2 ^ Z.log2 x) by (apply p2; lia); lia|].
    apply Z.log2_unique; [exact L|]. unfold Z.succ. lia.
Qed.
Lemma ctz_pow k : 0 <= k -> ctz64 (2 ^ k) = k.
Proof.
  intros H. pattern k. apply natlike_ind; [reflexivity| |exact H]. intros x Hx IH. rewrite Z.pow_succ_r by exact Hx. pose proof (p2 x Hx). destruct (2 ^ x) as [|p|p]; try lia. change (1 + ctz64 (Z.pos p) = Z.succ x). rewrite IH. lia.
Qed.
Lemma land_mask x k : 0 <= k -> Z.land x (2 ^ k - 1) = x mod 2 ^ k.
Proof. intros H. rewrite Z.sub_1_r, <- Z.ones_equiv. apply Z.land_ones. exact H. Qed.
Lemma sub_wrap x y : 0 <= x <= 63 -> 0 <= y <= 63 -> u32 (x - y) = if y <=? x then x - y else x - y + 2 ^ 32.
Proof. intros Hx Hy. destruct (Z.leb_spec y x); [apply u32_small; lia|]. unfold u32. symmetry. apply Z.mod_unique with (-1); lia. Qed.

Lemma udivmod_ok rem a b : 0 <= a < 2 ^ 128 -> 0 < b < 2 ^ 128 -> udivmod rem a b = Ok (if rem then a mod b else a / b).
Proof.
  intros Ha Hb. pose proof (low_bd a) as Bnl. pose proof (high_bd a) as Bnh. pose proof (low_bd b) as Bdl. pose proof (high_bd b) as Bdh. pose proof (halves a Ha) as Ea. pose proof (halves b ltac:(lia)) as Eb.
  unfold udivmod. set (nl := low a) in *. set (nh := high a) in *. set (dl := low b) in *. set (dh := high b) in *. cbv zeta. clearbody nl nh dl dh.
  assert (Ean : a = all nl nh) by exact Ea. assert (Ebn : b = all dl dh) by exact Eb.
  destruct (Z.eqb_spec nh 0) as [Nh|Nh].
  { destruct (Z.eqb_spec dh 0) as [Dh|Dh].
    - assert (a = nl) by lia. assert (b = dl) by lia. subst a b. unfold mod64, div64. replace (dl =? 0) with false by lia. destruct rem; f_equal; congruence.
    - assert (a < b) by lia. rewrite Z.mod_small, Z.div_small by lia. destruct rem; f_equal; lia. }
  assert (Bnh' : 0 < nh < 2 ^ 64) by lia. pose proof (log64 nh Bnh') as Lnh. pose proof (log_all nl nh Bnl Bnh') as Ln. rewrite <- Ean in Ln.
  destruct (Z.eqb_spec dl 0) as [Dl|Dl].
  - destruct (Z.eqb_spec dh 0) as [Dh|Dh]; [lia|]. assert (Bdh' : 0 < dh < 2 ^ 64) by lia. pose proof (log64 dh Bdh') as Ldh. pose proof (log_all dl dh Bdl Bdh') as Ld. rewrite <- Ebn in Ld.
    assert (Ebb : b = dh * 2 ^ 64) by lia.
    assert (DV : a / b = nh / dh /\ a mod b = (nh mod dh) * 2 ^ 64 + nl).
    { rewrite Ean, Ebb. unfold all. rewrite (Z.mul_comm dh), <- Z.div_div, Z.rem_mul_r by lia. rewrite Z.div_add_l by lia. rewrite (Z.div_small nl) by lia. rewrite Z.add_0_r. split; [reflexivity|].
      rewrite (Z.add_comm (nh * 2 ^ 64)), Z.mod_add by lia. rewrite (Z.mod_small nl) by lia. ring. }
    destruct DV as [DV1 DV2].
    destruct (Z.eqb_spec nl 0) as [Nl|Nl].
    { unfold mod64, div64. replace (dh =? 0) with false by lia. destruct rem; cbn [bind]; f_equal; unfold all; lia. }
    rewrite pot by exact Bdh'. destruct (Z.eqb_spec dh (2 ^ Z.log2 dh)) as [EP|EP].
    { destruct rem.
      - rewrite u64_small by lia. rewrite EP at 1. rewrite land_mask by lia. rewrite <- EP. unfold all. f_equal. lia.
      - rewrite EP at 1. rewrite ctz_pow by lia. rewrite shr64_ok by lia. rewrite <- EP. f_equal. lia. }
    unfold clz64. replace (63 - Z.log2 dh - (63 - Z.log2 nh)) with (Z.log2 nh - Z.log2 dh) by lia. rewrite sub_wrap by lia.
    destruct (Z.leb_spec (Z.log2 dh) (Z.log2 nh)) as [Hle|Hle].
    2:{ replace (62 <? Z.log2 nh - Z.log2 dh + 2 ^ 32) with true by lia. assert (a < b). { assert (2 ^ (Z.log2 nh + 65) <= 2 ^ (Z.log2 dh + 64)) by (apply Z.pow_le_mono_r; lia). lia. } rewrite Z.mod_small, Z.div_small by lia. reflexivity. }
    assert (L1 : 1 <= Z.log2 dh). { assert (Z.log2 dh <> 0); [|lia]. intros A. rewrite A in *. pose proof (bits_lt dh ltac:(lia)). rewrite A in *. change (2 ^ 0) with 1 in *. change (2 ^ (0 + 1)) with 2 in *. lia. }
    replace (62 <? Z.log2 nh - Z.log2 dh) with false by lia. rewrite (u32_small (Z.log2 nh - Z.log2 dh + 1)) by lia. set (sr := Z.log2 nh - Z.log2 dh + 1) in *. assert (Hsr : 1 <= sr <= 63) by lia.
      assert (P1 : 0 < 2 ^ sr) by (apply p2; lia).
      assert (HR : a / 2 ^ sr < b). { apply Z.div_lt_upper_bound; [lia|]. assert (2 ^ (Z.log2 nh + 65) = 2 ^ sr * 2 ^ (Z.log2 dh + 64)) by (rewrite <- Z.pow_add_r by lia; f_equal; lia). nia. }
      assert (HC : b < 2 ^ 127 \/ sr = 1 /\ 2 ^ 127 <= a).
      { destruct (Z.lt_ge_cases b (2 ^ 127)); [left; assumption|right]. assert (Z.log2 dh = 63). { assert (Z.log2 dh <= 62 -> False); [|lia]. intros A. assert (2 ^ (Z.log2 dh + 65) <= 2 ^ 127) by (apply Z.pow_le_mono_r; lia). lia. }
        split; [lia|]. assert (2 ^ 127 <= 2 ^ (Z.log2 nh + 64)) by (apply Z.pow_le_mono_r; lia). lia. }
      assert (E64 : 2 ^ 64 = 2 ^ sr * 2 ^ (64 - sr)) by (rewrite <- Z.pow_add_r by lia; f_equal; lia). rewrite (u32_small (64 - sr)) by lia. rewrite !shl64_ok, !shr64_ok by lia. cbn [bind]. replace (64 - (64 - sr)) with sr by lia.
      destruct (mid nl nh sr Bnl Bnh ltac:(lia)) as (M1 & M2 & M3). destruct (pair_shr nl nh sr Bnl Bnh ltac:(lia)) as (S1 & S2). rewrite M1. pose proof (Z.mod_pos_bound nl (2 ^ sr) P1). assert (P2 : 0 < 2 ^ (64 - sr)) by (apply p2; lia).
      apply div_tail_ok; try assumption; try lia.
      -- split; [apply Z.div_pos; lia|]. apply Z.div_lt_upper_bound; nia.
      -- nia.
      -- rewrite S1, <- Ean. reflexivity.
      -- rewrite Ean, S2. unfold all. replace (128 - sr) with (64 - sr + 64) by lia. rewrite (Z.pow_add_r 2 (64 - sr) 64) by lia. ring.
  - destruct (Z.eqb_spec dh 0) as [Dh|Dh].
    + assert (Bdl' : 0 < dl < 2 ^ 64) by lia. pose proof (log64 dl Bdl') as Ldl. assert (Ebb : b = dl) by lia. pose proof (bits_lt dl ltac:(lia)) as Bits. rewrite pot by exact Bdl'.
      destruct (Z.eqb_spec dl (2 ^ Z.log2 dl)) as [EP|EP].
      { destruct rem.
        - rewrite u64_small by lia. rewrite EP at 1. rewrite land_mask by lia. rewrite <- EP. f_equal. rewrite Ebb, Ean. destruct (Z.eq_dec (Z.log2 dl) 0) as [L0|L0].
          + rewrite L0 in EP. rewrite EP. change (2 ^ 0) with 1. rewrite !Z.mod_1_r. reflexivity.
          + destruct (pair_shr nl nh (Z.log2 dl) Bnl Bnh ltac:(lia)) as (_ & S2). rewrite EP. rewrite S2. reflexivity.
        - destruct (Z.eqb_spec dl 1) as [E1|E1]; [rewrite Ebb, E1, Z.div_1_r; reflexivity|].
          assert (L0 : Z.log2 dl <> 0) by (intros A; rewrite A in EP; change (2 ^ 0) with 1 in EP; lia). rewrite EP. rewrite ctz_pow by lia. set (sr := Z.log2 dl) in *.
          rewrite (u32_small (64 - sr)) by lia. rewrite !shl64_ok, !shr64_ok by lia. cbn [bind]. replace (64 - (64 - sr)) with sr by lia. destruct (mid nl nh sr Bnl Bnh ltac:(lia)) as (M1 & M2 & M3). rewrite M1.
          destruct (pair_shr nl nh sr Bnl Bnh ltac:(lia)) as (S1 & S2). rewrite S1. rewrite Ebb, EP. rewrite <- Ean. reflexivity. }
      assert (L1 : 1 <= Z.log2 dl). { assert (Z.log2 dl <> 0); [|lia]. intros A. rewrite A in *. change (2 ^ 0) with 1 in *. change (2 ^ (0 + 1)) with 2 in *. lia. }
      unfold clz64. replace (1 + 64 + (63 - Z.log2 dl) - (63 - Z.log2 nh)) with (65 + Z.log2 nh - Z.log2 dl) by lia. rewrite (u32_small (65 + Z.log2 nh - Z.log2 dl)) by lia. set (sr := 65 + Z.log2 nh - Z.log2 dl) in *.
      assert (Hsr : 2 <= sr <= 127) by lia.
      assert (HB : b < 2 ^ 127) by lia. assert (P1 : 0 < 2 ^ sr) by (apply p2; lia).
      assert (HR : a / 2 ^ sr < b). { apply Z.div_lt_upper_bound; [lia|]. assert (2 ^ (Z.log2 nh + 65) = 2 ^ sr * 2 ^ Z.log2 dl) by (rewrite <- Z.pow_add_r by lia; f_equal; lia). nia. }
      destruct (Z.eqb_spec sr 64) as [E6|E6].
      { destruct (pair_shr64 nl nh 0 Bnl Bnh ltac:(lia)) as (S1 & S2). change (2 ^ 0) with 1 in *. rewrite Z.div_1_r in S1. rewrite Z.mod_1_r in S2. rewrite E6 in *.
        apply div_tail_ok; try lia; try (left; lia); unfold all; rewrite ?Ean; change (128 - 64) with 64; change (0 + 64) with 64 in *; lia. }
      destruct (Z.ltb_spec sr 64) as [E7|E7].
      * assert (E64 : 2 ^ 64 = 2 ^ sr * 2 ^ (64 - sr)) by (rewrite <- Z.pow_add_r by lia; f_equal; lia). rewrite (u32_small (64 - sr)) by lia. rewrite !shl64_ok, !shr64_ok by lia. cbn [bind]. replace (64 - (64 - sr)) with sr by lia.
        destruct (mid nl nh sr Bnl Bnh ltac:(lia)) as (M1 & M2 & M3). destruct (pair_shr nl nh sr Bnl Bnh ltac:(lia)) as (S1 & S2). rewrite M1. pose proof (Z.mod_pos_bound nl (2 ^ sr) P1). assert (P2 : 0 < 2 ^ (64 - sr)) by (apply p2; lia).
        apply div_tail_ok; try lia.
        -- split; [apply Z.div_pos; lia|]. apply Z.div_lt_upper_bound; nia.
        -- nia.
        -- rewrite S1, <- Ean. reflexivity.
        -- rewrite Ean, S2. unfold all. replace (128 - sr) with (64 - sr + 64) by lia. rewrite (Z.pow_add_r 2 (64 - sr) 64) by lia. ring.
      * set (s := sr - 64) in *. rewrite (u32_small (128 - sr)), (u32_small s) by lia. replace (128 - sr) with (64 - s) by lia. rewrite !shl64_ok, !shr64_ok by lia. cbn [bind]. replace (64 - (64 - s)) with s by lia.
        destruct (mid nl nh s Bnl Bnh ltac:(lia)) as (M1 & M2 & M3). destruct (pair_shr64 nl nh s Bnl Bnh ltac:(lia)) as (S1 & S2). rewrite M1. replace (s + 64) with sr in * by lia.
        assert (Ps : 0 < 2 ^ s) by (apply p2; lia). pose proof (Z.mod_pos_bound nl (2 ^ s) Ps). assert (P2 : 0 < 2 ^ (64 - s)) by (apply p2; lia). assert (E64 : 2 ^ 64 = 2 ^ s * 2 ^ (64 - s)) by (rewrite <- Z.pow_add_r by lia; f_equal; lia).
        apply div_tail_ok; try lia.
        -- split; [apply Z.div_pos; lia|]. apply Z.div_lt_upper_bound; nia.
        -- nia.
        -- unfold all at 1. rewrite Z.mul_0_l, Z.add_0_l, S1, <- Ean. reflexivity.
        -- rewrite Ean, S2. unfold all. replace (128 - sr) with (64 - s) by lia. pose proof (Z.div_mod nl (2 ^ s) ltac:(lia)) as D. rewrite E64. set (x := nl / 2 ^ s) in *. set (y := nl mod 2 ^ s) in *. set (z := nh mod 2 ^ s) in *. rewrite D. ring.
    + assert (Bdh' : 0 < dh < 2 ^ 64) by lia. pose proof (log64 dh Bdh') as Ldh. pose proof (log_all dl dh Bdl Bdh') as Ld. rewrite <- Ebn in Ld.
      unfold clz64. replace (63 - Z.log2 dh - (63 - Z.log2 nh)) with (Z.log2 nh - Z.log2 dh) by lia. rewrite sub_wrap by lia.
      destruct (Z.leb_spec (Z.log2 dh) (Z.log2 nh)) as [Hle|Hle].
      2:{ replace (63 <? Z.log2 nh - Z.log2 dh + 2 ^ 32) with true by lia. assert (a < b). { assert (2 ^ (Z.log2 nh + 65) <= 2 ^ (Z.log2 dh + 64)) by (apply Z.pow_le_mono_r; lia). lia. } rewrite Z.mod_small, Z.div_small by lia. reflexivity. }
      replace (63 <? Z.log2 nh - Z.log2 dh) with false by lia. rewrite (u32_small (Z.log2 nh - Z.log2 dh + 1)) by lia. set (sr := Z.log2 nh - Z.log2 dh + 1) in *. assert (Hsr : 1 <= sr <= 64) by lia.
      assert (P1 : 0 < 2 ^ sr) by (apply p2; lia).
      assert (HR : a / 2 ^ sr < b). { apply Z.div_lt_upper_bound; [lia|]. assert (2 ^ (Z.log2 nh + 65) = 2 ^ sr * 2 ^ (Z.log2 dh + 64)) by (rewrite <- Z.pow_add_r by lia; f_equal; lia). nia. }
      assert (HC : b < 2 ^ 127 \/ sr = 1 /\ 2 ^ 127 <= a).
      { destruct (Z.lt_ge_cases b (2 ^ 127)); [left; assumption|right]. assert (Z.log2 dh = 63). { assert (Z.log2 dh <= 62 -> False); [|lia]. intros A. assert (2 ^ (Z.log2 dh + 65) <= 2 ^ 127) by (apply Z.pow_le_mono_r; lia). lia. }
        split; [lia|]. assert (2 ^ 127 <= 2 ^ (Z.log2 nh + 64)) by (apply Z.pow_le_mono_r; lia). lia. }
      destruct (Z.eqb_spec sr 64) as [E6|E6].
      { destruct (pair_shr64 nl nh 0 Bnl Bnh ltac:(lia)) as (S1 & S2). change (2 ^ 0) with 1 in *. rewrite Z.div_1_r in S1. rewrite Z.mod_1_r in S2. rewrite E6 in *.
        apply div_tail_ok; try assumption; try lia; unfold all; rewrite ?Ean; change (128 - 64) with 64; change (0 + 64) with 64 in *; lia. }
      assert (E64 : 2 ^ 64 = 2 ^ sr * 2 ^ (64 - sr)) by (rewrite <- Z.pow_add_r by lia; f_equal; lia). rewrite (u32_small (64 - sr)) by lia. rewrite !shl64_ok, !shr64_ok by lia. cbn [bind]. replace (64 - (64 - sr)) with sr by lia.
      destruct (mid nl nh sr Bnl Bnh ltac:(lia)) as (M1 & M2 & M3). destruct (pair_shr nl nh sr Bnl Bnh ltac:(lia)) as (S1 & S2). rewrite M1. pose proof (Z.mod_pos_bound nl (2 ^ sr) P1). assert (P2 : 0 < 2 ^ (64 - sr)) by (apply p2; lia).
      apply div_tail_ok; try assumption; try lia.
      -- split; [apply Z.div_pos; lia|]. apply Z.div_lt_upper_bound; nia.
      -- nia.
      -- rewrite S1, <- Ean. reflexivity.
      -- rewrite Ean, S2. unfold all. replace (128 - sr) with (64 - sr + 64) by lia. rewrite (Z.pow_add_r 2 (64 - sr) 64) by lia. ring.
Qed.
