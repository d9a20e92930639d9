From Coq Require Import ZArith Bool List Lia ZifyBool.
From Verif Require Import Mach RtModel RtProofs RtProofs2.
Open Scope Z_scope.

(** ** Signed division *)
Lemma i128_small x : - 2 ^ 127 <= x < 2 ^ 127 -> i128 x = x.
Proof.
  intros H. unfold i128. destruct (Z.lt_ge_cases x 0).
  - assert (E : x mod 2 ^ 128 = x + 2 ^ 128) by (symmetry; apply Z.mod_unique with (-1); lia). rewrite E. replace (x + 2 ^ 128 <? 2 ^ 127) with false by lia. lia.
  - rewrite Z.mod_small by lia. replace (x <? 2 ^ 127) with true by lia. reflexivity.
Qed.
Lemma i128_mod x y : x mod 2 ^ 128 = y mod 2 ^ 128 -> i128 x = i128 y.
Proof. intros H. unfold i128. rewrite H. reflexivity. Qed.
Lemma i128_bd x : - 2 ^ 127 <= i128 x < 2 ^ 127.
Proof. unfold i128. pose proof (Z.mod_pos_bound x (2 ^ 128) ltac:(lia)). destruct (Z.ltb_spec (x mod 2 ^ 128) (2 ^ 127)); lia. Qed.
Lemma sign_of a : - 2 ^ 127 <= a < 2 ^ 127 -> Z.shiftr a 127 = if a <? 0 then -1 else 0.
Proof.
  intros H. rewrite Z.shiftr_div_pow2 by lia. destruct (Z.ltb_spec a 0); [symmetry; apply Z.div_unique with (a + 2 ^ 127); lia|apply Z.div_small; lia].
Qed.
Lemma abs_of a : - 2 ^ 127 <= a < 2 ^ 127 -> u128 (u128 (Z.lxor a (Z.shiftr a 127)) + i128 (- Z.shiftr a 127)) = Z.abs a.
Proof.
  intros H. rewrite sign_of by exact H. destruct (Z.ltb_spec a 0).
  - rewrite Z.lxor_m1_r. unfold Z.lnot. rewrite (u128_small (Z.pred (- a))) by lia. change (i128 (- -1)) with 1. rewrite u128_small by lia. lia.
  - rewrite Z.lxor_0_r. change (i128 (- 0)) with 0. rewrite (u128_small a) by lia. rewrite u128_small by lia. lia.
Qed.
Lemma neg_if q (s : bool) : 0 <= q < 2 ^ 128 -> i128 (Z.lxor q (u128 (if s then -1 else 0)) + - (if s then -1 else 0)) = i128 (if s then - q else q).
Proof.
  intros H. destruct s; [|change (u128 0) with 0; rewrite Z.lxor_0_r; f_equal; lia].
  change (u128 (-1)) with (2 ^ 128 - 1). replace (Z.lxor q (2 ^ 128 - 1)) with (2 ^ 128 - 1 - q).
  - apply i128_mod. replace (2 ^ 128 - 1 - q + - -1) with (- q + 1 * 2 ^ 128) by lia. apply Z.mod_add. lia.
  - rewrite Z.sub_1_r, <- Z.ones_equiv. apply Z.bits_inj'. intros n Hn. rewrite Z.lxor_spec.
    replace (Z.ones 128 - q) with (Z.ldiff (Z.ones 128) q); [|symmetry; apply Z.sub_nocarry_ldiff].
    + rewrite Z.ldiff_spec. destruct (Z.lt_ge_cases n 128); [rewrite Z.ones_spec_low by lia; destruct (Z.testbit q n); reflexivity|].
      rewrite Z.ones_spec_high by lia. rewrite <- (Z.mod_small q (2 ^ 128)) by lia. rewrite Z.mod_pow2_bits_high by lia. reflexivity.
    + rewrite Z.ldiff_ones_r_low; [reflexivity|lia|]. destruct (Z.eq_dec q 0) as [->|]; [reflexivity|]. apply Z.log2_lt_pow2; lia.
Qed.
Lemma lxor_sign (x y : bool) : Z.lxor (if x then -1 else 0) (if y then -1 else 0) = if xorb x y then -1 else 0.
Proof. destruct x, y; reflexivity. Qed.
Lemma quot_abs a b : b <> 0 -> Z.quot a b = if xorb (a <? 0) (b <? 0) then - (Z.abs a / Z.abs b) else Z.abs a / Z.abs b.
Proof.
  intros Hb. rewrite <- (Z.quot_div_nonneg (Z.abs a) (Z.abs b)) by lia. destruct (Z.ltb_spec a 0), (Z.ltb_spec b 0); cbn [xorb].
  - replace (Z.abs a) with (- a) by lia. replace (Z.abs b) with (- b) by lia. rewrite Z.quot_opp_opp by lia. reflexivity.
  - replace (Z.abs a) with (- a) by lia. replace (Z.abs b) with b by lia. rewrite Z.quot_opp_l by lia. lia.
  - replace (Z.abs a) with a by lia. replace (Z.abs b) with (- b) by lia. rewrite Z.quot_opp_r by lia. lia.
  - replace (Z.abs a) with a by lia. replace (Z.abs b) with b by lia. reflexivity.
Qed.
Lemma rem_abs a b : b <> 0 -> Z.rem a b = if a <? 0 then - (Z.abs a mod Z.abs b) else Z.abs a mod Z.abs b.
Proof.
  intros Hb. rewrite <- (Z.rem_mod_nonneg (Z.abs a) (Z.abs b)) by lia. rewrite Z.rem_abs_r by lia. destruct (Z.ltb_spec a 0).
  - replace (Z.abs a) with (- a) by lia. rewrite Z.rem_opp_l by lia. lia.
  - replace (Z.abs a) with a by lia. reflexivity.
Qed.
Lemma divti3_ok a b : - 2 ^ 127 <= a < 2 ^ 127 -> - 2 ^ 127 <= b < 2 ^ 127 -> b <> 0 -> divti3 a b = Ok (i128 (Z.quot a b)).
Proof.
  intros Ha Hb N. unfold divti3. cbv zeta. rewrite !abs_of by assumption. unfold udivti3. rewrite udivmod_ok by lia. cbn [bind]. f_equal.
  rewrite !sign_of by assumption. rewrite lxor_sign. assert (0 <= Z.abs a / Z.abs b <= 2 ^ 127). { split; [apply Z.div_pos; lia|]. apply Z.div_le_upper_bound; nia. }
  rewrite neg_if by lia. rewrite quot_abs by exact N. reflexivity.
Qed.
Lemma modti3_ok a b : - 2 ^ 127 <= a < 2 ^ 127 -> - 2 ^ 127 <= b < 2 ^ 127 -> b <> 0 -> modti3 a b = Ok (Z.rem a b).
Proof.
  intros Ha Hb N. unfold modti3. cbv zeta. rewrite !abs_of by assumption. unfold umodti3. rewrite udivmod_ok by lia. cbn [bind]. f_equal.
  rewrite !sign_of by assumption. pose proof (Z.mod_pos_bound (Z.abs a) (Z.abs b) ltac:(lia)). rewrite neg_if by lia. rewrite <- rem_abs by exact N. apply i128_small. rewrite rem_abs by exact N. destruct (a <? 0); lia.
Qed.
Lemma quot_fits a b : - 2 ^ 127 <= a < 2 ^ 127 -> - 2 ^ 127 <= b < 2 ^ 127 -> b <> 0 -> ~ (a = - 2 ^ 127 /\ b = -1) -> - 2 ^ 127 <= Z.quot a b < 2 ^ 127.
Proof.
  intros Ha Hb N H. rewrite quot_abs by exact N. assert (0 <= Z.abs a / Z.abs b <= 2 ^ 127). { split; [apply Z.div_pos; lia|]. apply Z.div_le_upper_bound; nia. }
  destruct (Z.ltb_spec a 0), (Z.ltb_spec b 0); cbn [xorb]; try lia.
  - destruct (Z.eq_dec b (-1)) as [->|]; [change (Z.abs (-1)) with 1; rewrite Z.div_1_r; lia|]. assert (Z.abs a / Z.abs b < 2 ^ 127); [|lia]. apply Z.div_lt_upper_bound; nia.
  - assert (Z.abs a / Z.abs b <= a); [|lia]. apply Z.div_le_upper_bound; nia.
Qed.
Lemma udivmod_zero rem a : 0 <= a < 2 ^ 128 -> udivmod rem a 0 = Oob.
Proof. intros H. unfold udivmod. change (low 0) with 0. change (high 0) with 0. cbv zeta. destruct (high a =? 0); destruct rem; reflexivity. Qed.
Lemma signed_zero a : - 2 ^ 127 <= a < 2 ^ 127 -> divti3 a 0 = Oob /\ modti3 a 0 = Oob.
Proof.
  intros H. unfold divti3, modti3. cbv zeta. rewrite !(abs_of a) by exact H. rewrite !(abs_of 0) by lia. change (Z.abs 0) with 0. unfold udivti3, umodti3. rewrite !udivmod_zero by lia. split; reflexivity.
Qed.

(** ** Multiplication *)
Lemma mask32 x : Z.land x (2 ^ 32 - 1) = x mod 2 ^ 32. Proof. apply (land_mask x 32). lia. Qed.
Lemma mulddi3_ok a b : 0 <= a < 2 ^ 64 -> 0 <= b < 2 ^ 64 -> mulddi3 a b = a * b.
Proof.
  intros Ha Hb. unfold mulddi3. cbv zeta. rewrite !mask32, !Z.shiftr_div_pow2, !Z.shiftl_mul_pow2 by lia.
  assert (P : 0 < 2 ^ 32) by lia. pose proof (Z.div_mod a (2 ^ 32) ltac:(lia)) as Da. pose proof (Z.div_mod b (2 ^ 32) ltac:(lia)) as Db.
  pose proof (Z.mod_pos_bound a (2 ^ 32) P) as Ba. pose proof (Z.mod_pos_bound b (2 ^ 32) P) as Bb.
  assert (Ca : 0 <= a / 2 ^ 32 < 2 ^ 32) by (split; [apply Z.div_pos; lia|apply Z.div_lt_upper_bound; lia]). assert (Cb : 0 <= b / 2 ^ 32 < 2 ^ 32) by (split; [apply Z.div_pos; lia|apply Z.div_lt_upper_bound; lia]).
  set (al := a mod 2 ^ 32) in *. set (ah := a / 2 ^ 32) in *. set (bl := b mod 2 ^ 32) in *. set (bh := b / 2 ^ 32) in *. clearbody al ah bl bh.
  assert (LE : forall x y, 0 <= x < 2 ^ 32 -> 0 <= y < 2 ^ 32 -> 0 <= x * y <= (2 ^ 32 - 1) * (2 ^ 32 - 1)) by (intros; nia).
  pose proof (LE al bl Ba Bb) as P1. pose proof (LE ah bl Ca Bb) as P2. pose proof (LE bh al Cb Ba) as P3. pose proof (LE ah bh Ca Cb) as P4.
  rewrite (u64_small (al * bl)), (u64_small (ah * bl)), (u64_small (bh * al)), (u64_small (ah * bh)) by lia.
  assert (PP : a * b = al * bl + (ah * bl + bh * al) * 2 ^ 32 + ah * bh * (2 ^ 32 * 2 ^ 32)) by (rewrite Da, Db; ring).
  set (p1 := al * bl) in *. set (p2' := ah * bl) in *. set (p3 := bh * al) in *. set (p4 := ah * bh) in *. assert (LT : a * b < 2 ^ 64 * 2 ^ 64) by nia. clearbody p1 p2' p3 p4. clear LE Da Db.
  pose proof (Z.div_mod p1 (2 ^ 32) ltac:(lia)) as D1. pose proof (Z.mod_pos_bound p1 (2 ^ 32) P) as B1.
  assert (C1 : 0 <= p1 / 2 ^ 32 < 2 ^ 32) by (split; [apply Z.div_pos; lia|apply Z.div_lt_upper_bound; lia]).
  rewrite (u64_small (p1 / 2 ^ 32 + p2')) by lia. set (t := p1 / 2 ^ 32 + p2') in *.
  pose proof (Z.div_mod t (2 ^ 32) ltac:(lia)) as D2. pose proof (Z.mod_pos_bound t (2 ^ 32) P) as B2. assert (C2 : 0 <= t / 2 ^ 32 < 2 ^ 32) by (split; [apply Z.div_pos; lia|apply Z.div_lt_upper_bound; lia]).
  rewrite (u64_small (t mod 2 ^ 32 * 2 ^ 32)) by lia. rewrite (u64_small (p1 mod 2 ^ 32 + t mod 2 ^ 32 * 2 ^ 32)) by lia.
  rewrite Z.div_add by lia. rewrite Z.mod_add by lia. rewrite (Z.div_small (p1 mod 2 ^ 32)) by lia. rewrite (Z.mod_mod p1) by lia. rewrite Z.add_0_l.
  rewrite (u64_small (t mod 2 ^ 32 + p3)) by lia. set (v := t mod 2 ^ 32 + p3) in *.
  pose proof (Z.div_mod v (2 ^ 32) ltac:(lia)) as D3. pose proof (Z.mod_pos_bound v (2 ^ 32) P) as B3. assert (C3 : 0 <= v / 2 ^ 32 < 2 ^ 32) by (split; [apply Z.div_pos; lia|apply Z.div_lt_upper_bound; lia]).
  rewrite (u64_small (v mod 2 ^ 32 * 2 ^ 32)) by lia. rewrite (u64_small (p1 mod 2 ^ 32 + v mod 2 ^ 32 * 2 ^ 32)) by lia. rewrite (u64_small (t / 2 ^ 32 + v / 2 ^ 32)) by lia.
  assert (F : a * b = (t / 2 ^ 32 + v / 2 ^ 32 + p4) * 2 ^ 64 + (p1 mod 2 ^ 32 + v mod 2 ^ 32 * 2 ^ 32)) by lia.
  rewrite u64_small by lia. unfold all. lia.
Qed.
Lemma mod_halves a : a mod 2 ^ 128 = (high a * 2 ^ 64 + low a) mod 2 ^ 128.
Proof. rewrite <- halves_mod. rewrite Z.mod_mod by lia. reflexivity. Qed.
Lemma multi3_ok a b : multi3 a b = i128 (a * b).
Proof.
  unfold multi3. cbv zeta. rewrite mulddi3_ok by apply low_bd. apply i128_mod. rewrite (Z.mul_mod a b) by lia. rewrite (mod_halves a), (mod_halves b). rewrite <- Z.mul_mod by lia.
  pose proof (low_bd a) as Bla. pose proof (low_bd b) as Blb. set (la := low a) in *. set (lb := low b) in *. set (ha := high a) in *. set (hb := high b) in *. clearbody la lb ha hb.
  unfold u64 at 1 2 3 4. unfold all.
  assert (K : forall x y, (x mod 2 ^ 64 * 2 ^ 64 + y) mod 2 ^ 128 = (x * 2 ^ 64 + y) mod 2 ^ 128).
  { intros x y. pose proof (Z.div_mod x (2 ^ 64) ltac:(lia)) as D. replace (x * 2 ^ 64 + y) with (x mod 2 ^ 64 * 2 ^ 64 + y + (x / 2 ^ 64) * 2 ^ 128) by lia. rewrite Z.mod_add by lia. reflexivity. }
  rewrite K. rewrite <- Z.add_mod by lia. rewrite Z.mul_add_distr_r. rewrite <- Z.add_assoc. rewrite (Z.add_comm _ (low (la * lb))), Z.add_assoc.
  rewrite (Z.add_comm (high (la * lb) * 2 ^ 64 + low (la * lb))), K. rewrite <- halves by nia.
  replace ((ha * 2 ^ 64 + la) * (hb * 2 ^ 64 + lb)) with ((ha * lb + la * hb) * 2 ^ 64 + la * lb + (ha * hb) * 2 ^ 128) by ring. rewrite Z.mod_add by lia. reflexivity.
Qed.

(** ** Shifts *)
Lemma lshrti3_ok a b : 0 <= a < 2 ^ 128 -> 0 <= b < 128 -> lshrti3 a b = Ok (a / 2 ^ b).
Proof.
  intros Ha Hb. pose proof (low_bd a) as Bl. pose proof (high_bd a) as Bh. pose proof (halves a Ha) as E. unfold lshrti3. destruct (Z.leb_spec 64 b).
  - rewrite shr64_ok by lia. cbn [bind]. f_equal. destruct (pair_shr64 (low a) (high a) (b - 64) Bl Bh ltac:(lia)) as (S1 & _). unfold all at 1. rewrite S1. replace (b - 64 + 64) with b by lia. unfold all. rewrite <- E. lia.
  - destruct (Z.eqb_spec b 0) as [->|]; [rewrite Z.div_1_r; reflexivity|]. rewrite shl64_ok, !shr64_ok by lia. cbn [bind]. f_equal. replace (64 - (64 - b)) with b by lia.
    destruct (mid (low a) (high a) b Bl Bh ltac:(lia)) as (M & _). rewrite M. destruct (pair_shr (low a) (high a) b Bl Bh ltac:(lia)) as (S1 & _). rewrite S1. unfold all. rewrite <- E. reflexivity.
Qed.
Lemma ashr_nonneg a b : 0 <= a < 2 ^ 127 -> 0 <= b < 128 -> ashrti3 a b = Ok (a / 2 ^ b).
Proof.
  intros Ha Hb. pose proof (low_bd a) as Bl. pose proof (high_bd a) as Bh. pose proof (halves a ltac:(lia)) as E. assert (Q : 0 <= a / 2 ^ b < 2 ^ 127). { pose proof (p2 b ltac:(lia)). split; [apply Z.div_pos; lia|]. apply Z.div_lt_upper_bound; nia. }
  unfold ashrti3. destruct (Z.leb_spec 64 b).
  - rewrite !shr64_ok by lia. cbn [bind]. f_equal. destruct (pair_shr64 (low a) (high a) (b - 64) Bl Bh ltac:(lia)) as (S1 & _). rewrite S1. replace (b - 64 + 64) with b by lia. unfold all. rewrite <- E.
    rewrite (Z.div_small (high a)) by lia. rewrite i128_small by lia. lia.
  - destruct (Z.eqb_spec b 0) as [->|]; [rewrite Z.div_1_r; reflexivity|]. rewrite shl64_ok, !shr64_ok by lia. cbn [bind]. f_equal. replace (64 - (64 - b)) with b by lia.
    destruct (mid (low a) (high a) b Bl Bh ltac:(lia)) as (M & _). rewrite M. destruct (pair_shr (low a) (high a) b Bl Bh ltac:(lia)) as (S1 & _). rewrite S1. unfold all. rewrite <- E. apply i128_small. lia.
Qed.
Lemma ashl_small a b : - 2 ^ 127 <= a < 2 ^ 127 -> 0 <= b < 64 -> ashlti3 a b = Ok (i128 (a * 2 ^ b)).
Proof.
  intros Ha Hb. pose proof (low_bd a) as Bl. pose proof (high_bd a) as Bh. unfold ashlti3. replace (64 <=? b) with false by lia. destruct (Z.eqb_spec b 0) as [->|].
  - f_equal. rewrite Z.mul_1_r. symmetry. apply i128_small. exact Ha.
  - rewrite !shl64_ok, shr64_ok by lia. cbn [bind]. f_equal. apply i128_mod. rewrite Z.mul_mod by lia. rewrite (mod_halves a). rewrite <- Z.mul_mod by lia.
    set (l := low a) in *. set (h := high a) in *. clearbody l h. assert (P1 : 0 < 2 ^ b) by (apply p2; lia). assert (P2 : 0 < 2 ^ (64 - b)) by (apply p2; lia). assert (E : 2 ^ 64 = 2 ^ (64 - b) * 2 ^ b) by (rewrite <- Z.pow_add_r by lia; f_equal; lia).
    assert (B : 0 <= l / 2 ^ (64 - b) < 2 ^ b). { split; [apply Z.div_pos; lia|]. apply Z.div_lt_upper_bound; lia. }
    rewrite lor_disj by lia. unfold all. pose proof (Z.div_mod l (2 ^ (64 - b)) ltac:(lia)) as D. pose proof (Z.div_mod h (2 ^ (64 - b)) ltac:(lia)) as D2.
    set (x := l / 2 ^ (64 - b)) in *. set (y := l mod 2 ^ (64 - b)) in *. set (u := h / 2 ^ (64 - b)) in *. set (v := h mod 2 ^ (64 - b)) in *. set (A := 2 ^ b) in *. set (C := 2 ^ (64 - b)) in *.
    replace ((h * 2 ^ 64 + l) * A) with ((v * A + x) * 2 ^ 64 + y * A + u * 2 ^ 128); [rewrite Z.mod_add by lia; reflexivity|].
    change (2 ^ 128) with (2 ^ 64 * 2 ^ 64). rewrite D, D2. rewrite E. ring.
Qed.
