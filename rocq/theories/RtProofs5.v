From Coq Require Import ZArith Bool List Lia ZifyBool.
From Verif Require Import Mach RtModel RtSpec RtProofs RtProofs2 RtProofs3 RtProofs4.
Open Scope Z_scope.

(** ** Packing and reading the fields *)
Definition sbit (neg : bool) : Z := if neg then 1 else 0.
Lemma good_eb f : good f -> 128 <= 2 ^ (ebits f - 1) /\ 2 ^ ebits f = 2 * 2 ^ (ebits f - 1).
Proof.
  intros (G1 & G2 & G3 & G4). split; [change 128 with (2 ^ 7); apply Z.pow_le_mono_r; lia|]. replace (ebits f) with (1 + (ebits f - 1)) at 1 by lia. rewrite Z.pow_add_r by lia. reflexivity.
Qed.
Lemma pack_ok f (neg : bool) e a : good f -> 0 <= e <= 128 ->
  pack f (if neg then -1 else 0) e a = sbit neg * 2 ^ (ebits f + sig f) + (e + bias f) * 2 ^ sig f + a mod 2 ^ sig f.
Proof.
  intros G He. destruct (good_eb f G) as [E1 E2]. destruct G as (G1 & G2 & G3 & G4). unfold pack, rep, width. set (W := ebits f + sig f + 1). replace (W - 1) with (ebits f + sig f) by lia.
  assert (Ps : 0 < 2 ^ sig f) by (apply p2; lia). assert (PW : 2 ^ W = 2 * (2 ^ ebits f * 2 ^ sig f)) by (unfold W; replace (ebits f + sig f + 1) with (1 + (ebits f + sig f)) by lia; rewrite !Z.pow_add_r by lia; reflexivity).
  assert (Hs : Z.land ((if neg then -1 else 0) mod 2 ^ W) (2 ^ (ebits f + sig f)) = sbit neg * 2 ^ (ebits f + sig f)).
  { destruct neg; cbn [sbit].
    - replace (-1 mod 2 ^ W) with (Z.ones W); [|rewrite Z.ones_equiv; apply Z.mod_unique with (-1); lia]. rewrite Z.land_comm, Z.land_ones by lia. rewrite Z.mod_small; [lia|]. split; [apply Z.pow_nonneg; lia|apply Z.pow_lt_mono_r; lia].
    - rewrite Z.mod_0_l by lia. reflexivity. }
  rewrite Hs. rewrite (Z.mod_small e) by nia. rewrite (Z.mod_small (e + bias f)) by nia. rewrite Z.shiftl_mul_pow2 by lia. rewrite (Z.mod_small ((e + bias f) * 2 ^ sig f)) by nia.
  rewrite lor_disj; [|lia|rewrite Z.pow_add_r by lia; nia]. rewrite land_mask by lia.
  assert (M : (a mod 2 ^ W) mod 2 ^ sig f = a mod 2 ^ sig f). { rewrite PW. symmetry. rewrite Z.mul_assoc. rewrite (Z.mul_comm (2 * 2 ^ ebits f)). rewrite Z.rem_mul_r by lia. rewrite Z.mul_comm, Z.mod_add by lia. rewrite Z.mod_mod by lia. reflexivity. }
  rewrite M. rewrite Z.pow_add_r by lia. rewrite Z.mul_assoc. rewrite <- Z.mul_add_distr_r. apply lor_disj; [lia|]. apply Z.mod_pos_bound. lia.
Qed.
Lemma fields p eb (neg : bool) E fr : 1 <= p -> 0 < eb -> 0 <= fr < 2 ^ (p - 1) -> 0 <= E < 2 ^ eb ->
  let b := sbit neg * 2 ^ (p - 1 + eb) + E * 2 ^ (p - 1) + fr in
  0 <= b < 2 ^ (p + eb) /\ fraction_field p b = fr /\ exponent_field p eb b = E /\ sign_field p eb b = sbit neg.
Proof.
  intros Hp Heb Hf HE b. pose proof (p2 (p - 1) ltac:(lia)) as P1. pose proof (p2 eb ltac:(lia)) as P2. assert (EP : 2 ^ (p - 1 + eb) = 2 ^ eb * 2 ^ (p - 1)) by (rewrite Z.pow_add_r by lia; lia).
  assert (EB : b = (sbit neg * 2 ^ eb + E) * 2 ^ (p - 1) + fr) by (unfold b; rewrite EP; ring). assert (D1 : b / 2 ^ (p - 1) = sbit neg * 2 ^ eb + E). { rewrite EB, Z.div_add_l by lia. rewrite Z.div_small by lia. lia. }
  repeat split.
  - rewrite EB. destruct neg; cbn [sbit]; nia.
  - replace (p + eb) with (1 + (p - 1 + eb)) by lia. rewrite (Z.pow_add_r 2 1) by lia. rewrite EP, EB. change (2 ^ 1) with 2. destruct neg; cbn [sbit]; nia.
  - unfold fraction_field. rewrite EB, Z.add_comm, Z.mod_add by lia. apply Z.mod_small. lia.
  - unfold exponent_field. rewrite D1, Z.add_comm, Z.mod_add by lia. apply Z.mod_small. lia.
  - unfold sign_field. rewrite Z.pow_add_r by lia. rewrite <- Z.div_div by lia. rewrite D1, Z.div_add_l by lia. rewrite Z.div_small by lia. lia.
Qed.
Lemma even_pow_mul z n : 0 < n -> Z.even (z * 2 ^ n) = true.
Proof. intros H. rewrite Z.even_mul, Z.even_pow by lia. apply orb_true_r. Qed.
Definition sgn (neg : bool) (y : Z) : Z := if neg then - y else y.
Lemma pack_means f (neg : bool) e m y : good f -> 0 <= e <= 128 -> 2 ^ sig f <= m < 2 ^ mant f -> (e = 128 -> m = 2 ^ sig f) -> y * down (e - sig f) = m * up (e - sig f) ->
  means (mant f) (ebits f) (pack f (if neg then -1 else 0) e m) (sgn neg y) /\ Z.even (pack f (if neg then -1 else 0) e m) = Z.even m.
Proof.
  intros G He Hm Ho Hy. destruct (good_eb f G) as [E1 E2]. assert (G0 := G). destruct G as (G1 & G2 & G3 & G4). rewrite pack_ok by assumption. assert (Ps : 0 < 2 ^ sig f) by (apply p2; lia).
  assert (Emm : 2 ^ mant f = 2 * 2 ^ sig f) by (rewrite G2; rewrite Z.pow_add_r by lia; lia). assert (Fr : m mod 2 ^ sig f = m - 2 ^ sig f) by (symmetry; apply Z.mod_unique with 1; lia). rewrite Fr.
  assert (YB : 2 ^ e <= y < 2 ^ (e + 1)).
  { destruct (up_down (e - sig f)) as [(L & U & D)|(L & U & D)]; rewrite U, D in Hy.
    - rewrite Z.mul_1_r in Hy. pose proof (p2 (e - sig f) L). assert (EE : 2 ^ e = 2 ^ sig f * 2 ^ (e - sig f)) by (rewrite <- Z.pow_add_r by lia; f_equal; lia). rewrite Z.pow_add_r by lia. change (2 ^ 1) with 2. rewrite EE. nia.
    - rewrite Z.mul_1_r in Hy. pose proof (p2 (- (e - sig f)) ltac:(lia)). assert (EE : 2 ^ sig f = 2 ^ e * 2 ^ (- (e - sig f))) by (rewrite <- Z.pow_add_r by lia; f_equal; lia). rewrite Z.pow_add_r by lia. change (2 ^ 1) with 2. set (K := 2 ^ (- (e - sig f))) in *. nia. }
  pose proof (p2 e ltac:(lia)) as Pe. split.
  - assert (FB : 0 <= m - 2 ^ sig f < 2 ^ (mant f - 1)) by (replace (mant f - 1) with (sig f) by lia; lia). assert (EB : 0 <= e + bias f < 2 ^ ebits f) by lia.
    pose proof (fields (mant f) (ebits f) neg (e + bias f) (m - 2 ^ sig f) ltac:(lia) ltac:(lia) FB EB) as F. cbv zeta in F. replace (mant f - 1) with (sig f) in F by lia. rewrite (Z.add_comm (sig f) (ebits f)) in F.
    set (b := sbit neg * 2 ^ (ebits f + sig f) + (e + bias f) * 2 ^ sig f + (m - 2 ^ sig f)) in *. destruct F as (F1 & F2 & F3 & F4).
    unfold means. assert (AB : Z.abs (sgn neg y) = y) by (destruct neg; cbn [sgn]; lia). rewrite AB. replace (mant f - 1 + ebits f) with (ebits f + sig f) by lia.
    destruct (Z.leb_spec (2 ^ 2 ^ (ebits f - 1)) y) as [O|O].
    + assert (2 ^ (ebits f - 1) < e + 1) by (apply (Z.pow_lt_mono_r_iff 2); lia). assert (e = 128) by lia. assert (2 ^ (ebits f - 1) = 128) by lia. unfold b. rewrite (Ho ltac:(assumption)). replace (mant f - 1) with (sig f) by lia.
      replace (e + bias f) with (2 ^ ebits f - 1) by lia. destruct neg; cbn [sgn sbit]; [replace (- y <? 0) with true by lia|replace (y <? 0) with false by lia]; lia.
    + assert (e < 2 ^ (ebits f - 1)). { apply (Z.pow_lt_mono_r_iff 2); lia. }
      split; [split; [exact F1|lia]|]. unfold ieee_mantissa, ieee_exponent. rewrite F2, F3, F4. replace (mant f - 1) with (sig f) by lia. replace (e + bias f =? 0) with false by lia. rewrite Z.max_r by lia.
      replace (e + bias f - (2 ^ (ebits f - 1) - 1) - sig f) with (e - sig f) by lia. replace (2 ^ sig f + (m - 2 ^ sig f)) with m by lia. destruct neg; cbn [sbit sgn]; [change (1 =? 0) with false|change (0 =? 0) with true]; cbv iota; rewrite <- Z.mul_assoc, <- Hy; ring.
  - replace (sbit neg * 2 ^ (ebits f + sig f) + (e + bias f) * 2 ^ sig f + (m - 2 ^ sig f)) with ((sbit neg * 2 ^ ebits f + (e + bias f) - 1) * 2 ^ sig f + m) by (rewrite Z.pow_add_r by lia; ring).
    rewrite Z.even_add, even_pow_mul by lia. destruct (Z.even m); reflexivity.
Qed.
Lemma closest_neg p x y b (neg : bool) : closest p x y b -> closest p (sgn neg x) (sgn neg y) b.
Proof.
  intros H. destruct neg; [|exact H]. cbn [sgn]. intros m e Hm. destruct (H (- m) e ltac:(lia)) as (A & B). replace (- x - - y) with (- (x - y)) by lia. rewrite Z.abs_opp.
  replace (Z.abs (- x * down e - m * up e)) with (Z.abs (x * down e - - m * up e)) by (rewrite <- Z.abs_opp; f_equal; ring). split; [exact A|]. intros C N. apply B; [exact C|]. intros D. apply N. lia.
Qed.
Lemma float_rounds f (neg : bool) w x : good f -> (forall y, 0 <= y < 2 ^ 60 -> w y = y) -> 0 < x < 2 ^ 128 ->
  rounds_to (mant f) (ebits f) (sgn neg x) (let '(m, e) := round_digits f w x in pack f (if neg then -1 else 0) e m).
Proof.
  intros G Hw Hx. rewrite (round_digits_ok f w x G Hw Hx). destruct (good_eb f G) as [E1 E2]. assert (G0 := G). destruct G as (G1 & G2 & G3 & G4). cbv zeta. pose proof (bits_lt x ltac:(lia)) as B.
  assert (L : 0 <= Z.log2 x <= 127). { split; [apply Z.log2_nonneg|]. assert (Z.log2 x < 128); [apply Z.log2_lt_pow2; lia|lia]. } set (sd := Z.log2 x + 1) in *. replace (Z.log2 x) with (sd - 1) in * by lia.
  assert (Ps : 0 < 2 ^ sig f) by (apply p2; lia).
  destruct (Z.ltb_spec (mant f) sd) as [H|H].
  - set (k := sd - mant f). assert (X : 2 ^ (mant f + k - 1) <= x < 2 ^ (mant f + k)) by (replace (mant f + k) with sd by lia; exact B).
    pose proof (rne_bd x (mant f) k ltac:(lia) ltac:(lia) X) as R. replace (mant f - 1) with (sig f) in R by lia. exists (sgn neg (rne x k * 2 ^ k)).
    destruct (Z.eqb_spec (rne x k) (2 ^ mant f)) as [T|T].
    + assert (M : 2 ^ mant f = 2 ^ sig f * 2) by (rewrite G2; rewrite Z.pow_add_r by lia; reflexivity).
      destruct (pack_means f neg sd (2 ^ sig f) (rne x k * 2 ^ k) G0 ltac:(lia) ltac:(lia) ltac:(lia)) as (P1 & P2).
      { rewrite T. destruct (up_down (sd - sig f)) as [(L1 & U & D)|(L1 & U & D)]; [|lia]. rewrite U, D. rewrite Z.mul_1_r. rewrite <- !Z.pow_add_r by lia. f_equal. lia. }
      split; [exact P1|]. apply closest_neg. apply closest_round; [lia|lia|exact X|]. intros _. rewrite P2. rewrite Z.even_pow by lia. reflexivity.
    + destruct (pack_means f neg (sd - 1) (rne x k) (rne x k * 2 ^ k) G0 ltac:(lia) ltac:(lia) ltac:(lia)) as (P1 & P2).
      { destruct (up_down (sd - 1 - sig f)) as [(L1 & U & D)|(L1 & U & D)]; [|lia]. rewrite U, D. rewrite Z.mul_1_r. do 2 f_equal. lia. }
      split; [exact P1|]. apply closest_neg. apply closest_round; [lia|lia|exact X|]. intros Ev. rewrite P2. exact Ev.
  - exists (sgn neg x). pose proof (p2 (mant f - sd) ltac:(lia)) as Pk. assert (EE : 2 ^ mant f = 2 ^ sd * 2 ^ (mant f - sd)) by (rewrite <- Z.pow_add_r by lia; f_equal; lia). assert (E3 : 2 ^ sig f = 2 ^ (sd - 1) * 2 ^ (mant f - sd)) by (rewrite <- Z.pow_add_r by lia; f_equal; lia).
    destruct (pack_means f neg (sd - 1) (x * 2 ^ (mant f - sd)) x G0 ltac:(lia) ltac:(nia) ltac:(lia)) as (P1 & P2).
    { destruct (up_down (sd - 1 - sig f)) as [(L1 & U & D)|(L1 & U & D)]; rewrite U, D.
      - replace (sd - 1 - sig f) with 0 by lia. replace (mant f - sd) with 0 by lia. change (2 ^ 0) with 1. lia.
      - rewrite Z.mul_1_r. do 2 f_equal. lia. }
    split; [exact P1|]. apply closest_neg. apply closest_exact.
Qed.
Lemma rounds_zero f : good f -> rounds_to (mant f) (ebits f) 0 0.
Proof.
  intros G. destruct (good_eb f G) as [E1 E2]. destruct G as (G1 & G2 & G3 & G4). exists 0. split; [|apply closest_exact]. unfold means. change (Z.abs 0) with 0. pose proof (p2 (2 ^ (ebits f - 1)) ltac:(lia)). replace (2 ^ 2 ^ (ebits f - 1) <=? 0) with false by lia.
  pose proof (p2 (mant f - 1) ltac:(lia)). pose proof (p2 (mant f + ebits f) ltac:(lia)). unfold finite, ieee_mantissa, exponent_field, fraction_field, sign_field. rewrite Z.div_0_l by lia. rewrite !Z.mod_0_l by lia. split; [lia|]. change (0 =? 0) with true.
  pose proof (p2 (mant f - 1 + ebits f) ltac:(lia)). rewrite Z.div_0_l by lia. reflexivity.
Qed.
Lemma float_from_u128_ok f x : good f -> 0 <= x < 2 ^ 128 -> rounds_to (mant f) (ebits f) x (float_from_u128 f x).
Proof.
  intros G Hx. unfold float_from_u128. destruct (Z.eqb_spec x 0) as [->|]; [apply rounds_zero; exact G|].
  apply (float_rounds f false u128 x G); [|lia]. intros y Hy. apply u128_small. lia.
Qed.
Lemma float_from_i128_ok f x : good f -> - 2 ^ 127 < x < 2 ^ 127 -> rounds_to (mant f) (ebits f) x (float_from_i128 f x).
Proof.
  intros G Hx. unfold float_from_i128. destruct (Z.eqb_spec x 0) as [->|]; [apply rounds_zero; exact G|]. cbv zeta. rewrite sign_of by lia. destruct (Z.ltb_spec x 0).
  - rewrite Z.lxor_m1_r. unfold Z.lnot. rewrite i128_small by lia. replace (Z.pred (- x) - -1) with (- x) by lia. pose proof (float_rounds f true i128 (- x) G) as R. cbn [sgn] in R. rewrite Z.opp_involutive in R. apply R; [|lia]. intros y Hy. apply i128_small. lia.
  - rewrite Z.lxor_0_r, Z.sub_0_r. rewrite i128_small by lia. apply (float_rounds f false i128 x G); [|lia]. intros y Hy. apply i128_small. lia.
Qed.

(** ** Floats to integers *)
Lemma land_top r n : 0 <= n -> 0 <= r < 2 ^ (n + 1) -> negb (Z.land r (2 ^ n) =? 0) = negb (r / 2 ^ n =? 0).
Proof.
  intros Hn Hr. pose proof (p2 n Hn) as P. rewrite Z.pow_add_r in Hr by lia. change (2 ^ 1) with 2 in Hr. assert (Q : 0 <= r / 2 ^ n < 2) by (split; [apply Z.div_pos; lia|apply Z.div_lt_upper_bound; lia]). f_equal.
  assert (T : Z.testbit r n = Z.odd (r / 2 ^ n)) by (rewrite Z.testbit_odd, Z.shiftr_div_pow2 by lia; reflexivity).
  assert (QQ : r / 2 ^ n = 0 \/ r / 2 ^ n = 1) by lia. destruct QQ as [QQ|QQ]; rewrite QQ in T |- *; cbn in T.
  - apply Z.eqb_eq. apply Z.bits_inj'. intros k Hk. rewrite Z.land_spec, Z.bits_0. destruct (Z.eq_dec k n) as [->|]; [rewrite T; reflexivity|]. rewrite Z.pow2_bits_false by lia. apply andb_false_r.
  - apply Z.eqb_neq. intros A. assert (F : Z.testbit (Z.land r (2 ^ n)) n = true) by (rewrite Z.land_spec, T, Z.pow2_bits_true by lia; reflexivity). rewrite A, Z.bits_0 in F. discriminate.
Qed.
Lemma int32_small x : - 2 ^ 31 <= x < 2 ^ 31 -> int32 x = x.
Proof.
  intros H. unfold int32. destruct (Z.lt_ge_cases x 0).
  - assert (E : x mod 2 ^ 32 = x + 2 ^ 32) by (symmetry; apply Z.mod_unique with (-1); lia). rewrite E. replace (x + 2 ^ 32 <? 2 ^ 31) with false by lia. lia.
  - rewrite Z.mod_small by lia. replace (x <? 2 ^ 31) with true by lia. reflexivity.
Qed.
Lemma int32_rep f x : 32 <= width f -> int32 (rep f x) = int32 x.
Proof.
  intros H. unfold int32, rep. replace (width f) with (32 + (width f - 32)) by lia. rewrite Z.pow_add_r by lia. pose proof (p2 (width f - 32) ltac:(lia)). rewrite Z.rem_mul_r by lia. rewrite (Z.mul_comm (2 ^ 32)), Z.mod_add by lia. rewrite Z.mod_mod by lia. reflexivity.
Qed.
Definition std (f : fmt) : Prop := good f /\ 32 <= width f.
Lemma std_float : std float_fmt. Proof. split; [apply good_float|cbn; lia]. Qed.
Lemma std_double : std double_fmt. Proof. split; [apply good_double|cbn; lia]. Qed.
Lemma read_fields f r : std f -> 0 <= r < 2 ^ (mant f + ebits f) ->
  let E := exponent_field (mant f) (ebits f) r in
  neg_rep f r = negb (sign_field (mant f) (ebits f) r =? 0) /\ exp_rep f r = E - bias f /\ sig_rep f r = 2 ^ sig f + fraction_field (mant f) r /\ 0 <= E < 2 ^ ebits f /\ 0 <= fraction_field (mant f) r < 2 ^ sig f /\ 0 <= sign_field (mant f) (ebits f) r < 2.
Proof.
  intros [G W] Hr E. destruct (good_eb f G) as [E1 E2]. destruct G as (G1 & G2 & G3 & G4). unfold width in *. assert (Ps : 0 < 2 ^ sig f) by (apply p2; lia). assert (Pe : 0 < 2 ^ ebits f) by lia. assert (Pw : 0 < 2 ^ (ebits f + sig f)) by (apply p2; lia).
  assert (EE : E = (r / 2 ^ sig f) mod 2 ^ ebits f) by (unfold E, exponent_field; do 3 f_equal; lia). assert (EF : fraction_field (mant f) r = r mod 2 ^ sig f) by (unfold fraction_field; do 2 f_equal; lia).
  assert (ES : sign_field (mant f) (ebits f) r = r / 2 ^ (ebits f + sig f)) by (unfold sign_field; do 2 f_equal; lia).
  pose proof (Z.mod_pos_bound (r / 2 ^ sig f) (2 ^ ebits f) Pe) as BE. pose proof (Z.mod_pos_bound r (2 ^ sig f) Ps) as BF. replace (mant f + ebits f) with (ebits f + sig f + 1) in Hr by lia.
  assert (AR : abs_rep f r = r mod 2 ^ (ebits f + sig f)). { unfold abs_rep, width. replace (ebits f + sig f + 1 - 1) with (ebits f + sig f) by lia. apply land_mask. lia. }
  assert (AR2 : r mod 2 ^ (ebits f + sig f) = r mod 2 ^ sig f + 2 ^ sig f * ((r / 2 ^ sig f) mod 2 ^ ebits f)). { rewrite Z.add_comm with (n := ebits f). rewrite Z.pow_add_r by lia. apply Z.rem_mul_r; lia. }
  assert (BE2 : 2 ^ ebits f <= 2 ^ 11) by (apply Z.pow_le_mono_r; lia).
  repeat split; try lia.
  - unfold neg_rep, width. replace (ebits f + sig f + 1 - 1) with (ebits f + sig f) by lia. rewrite land_top by lia. rewrite ES. reflexivity.
  - unfold exp_rep. rewrite int32_rep by (unfold width; lia). rewrite AR, AR2. rewrite Z.shiftr_div_pow2 by lia. rewrite (Z.mul_comm (2 ^ sig f)), Z.div_add by lia. rewrite (Z.div_small (r mod 2 ^ sig f)) by lia. rewrite Z.add_0_l, <- EE. apply int32_small. lia.
  - unfold sig_rep. rewrite AR, AR2, land_mask by lia. rewrite (Z.mul_comm (2 ^ sig f)), Z.mod_add by lia. rewrite Z.mod_mod by lia. rewrite Z.lor_comm. rewrite <- (Z.mul_1_l (2 ^ sig f)) at 1. rewrite lor_disj by lia. rewrite EF. lia.
  - rewrite ES. apply Z.div_pos; lia.
  - rewrite ES. apply Z.div_lt_upper_bound; [lia|]. rewrite Z.pow_add_r in Hr by lia. lia.
Qed.
Lemma quot_sgn (c : bool) m d : 0 <= m -> 0 < d -> Z.quot ((if c then 1 else -1) * m) d = (if c then 1 else -1) * (m / d).
Proof. intros Hm Hd. destruct c; [rewrite !Z.mul_1_l; apply Z.quot_div_nonneg; lia|]. replace (-1 * m) with (- m) by lia. rewrite Z.quot_opp_l by lia. rewrite Z.quot_div_nonneg by lia. lia. Qed.
(** What the value is, by the exponent. *)
Lemma truncated_by f r : std f -> finite (mant f) (ebits f) r ->
  let E := exponent_field (mant f) (ebits f) r in let s := if sign_field (mant f) (ebits f) r =? 0 then 1 else -1 in let m := 2 ^ sig f + fraction_field (mant f) r in let e := E - bias f in
  truncated (mant f) (ebits f) r = if e <? 0 then 0 else s * (if e <? sig f then m / 2 ^ (sig f - e) else m * 2 ^ (e - sig f)).
Proof.
  intros S [Hr Hf] E s m e. destruct (read_fields f r S Hr) as (_ & _ & _ & BE & BF & BS). fold E in BE, Hf. destruct S as [G W]. destruct (good_eb f G) as [E1 E2]. destruct G as (G1 & G2 & G3 & G4). assert (Ps : 0 < 2 ^ sig f) by (apply p2; lia).
  unfold truncated, ieee_mantissa, ieee_exponent. fold E. fold s. replace (mant f - 1) with (sig f) by lia. replace (2 ^ (ebits f - 1) - 1) with (bias f) by lia. set (m0 := (if E =? 0 then 0 else 2 ^ sig f) + fraction_field (mant f) r).
  set (e0 := Z.max 1 E - bias f - sig f). assert (M0 : 0 <= m0) by (unfold m0; destruct (E =? 0); lia). rewrite <- Z.mul_assoc. pose proof (up_down e0) as UD. assert (PU : 0 < up e0) by (unfold up; apply p2; lia). assert (PD : 0 < down e0) by (unfold down; apply p2; lia).
  unfold s. rewrite quot_sgn by nia. destruct (Z.ltb_spec e 0) as [N|N].
  - assert (m0 * up e0 < down e0). { destruct UD as [(L & U & D)|(L & U & D)]; [lia|]. rewrite U, D. rewrite Z.mul_1_r. assert (2 ^ sig f * 2 <= 2 ^ (- e0)). { replace (2 ^ sig f * 2) with (2 ^ (sig f + 1)) by (rewrite Z.pow_add_r by lia; reflexivity). destruct (Z.eq_dec E 0); apply Z.pow_le_mono_r; lia. } unfold m0. destruct (E =? 0); lia. }
    rewrite Z.div_small by nia. destruct (_ =? 0); reflexivity.
  - assert (m0 = m) by (unfold m0, m; replace (E =? 0) with false by lia; reflexivity). assert (EE : e0 = e - sig f) by lia. destruct (Z.ltb_spec e (sig f)).
    + destruct UD as [(L & U & D)|(L & U & D)]; [lia|]. rewrite U, D. rewrite Z.mul_1_r. replace (- e0) with (sig f - e) by lia. congruence.
    + destruct UD as [(L & U & D)|(L & U & D)]; [|lia]. rewrite U, D. rewrite Z.div_1_r. rewrite EE. congruence.
Qed.
Lemma mant_bounds f r : std f -> finite (mant f) (ebits f) r ->
  let E := exponent_field (mant f) (ebits f) r in let m := 2 ^ sig f + fraction_field (mant f) r in let e := E - bias f in 0 <= e ->
  2 ^ e <= (if e <? sig f then m / 2 ^ (sig f - e) else m * 2 ^ (e - sig f)) < 2 ^ (e + 1).
Proof.
  intros S [Hr Hf] E m e He. destruct (read_fields f r S Hr) as (_ & _ & _ & BE & BF & BS). destruct S as [G W]. destruct G as (G1 & G2 & G3 & G4). assert (Ps : 0 < 2 ^ sig f) by (apply p2; lia). rewrite Z.pow_add_r by lia. change (2 ^ 1) with 2. destruct (Z.ltb_spec e (sig f)).
  - pose proof (p2 (sig f - e) ltac:(lia)). assert (EE : 2 ^ sig f = 2 ^ e * 2 ^ (sig f - e)) by (rewrite <- Z.pow_add_r by lia; f_equal; lia). pose proof (p2 e He). split; [apply Z.div_le_lower_bound; unfold m; nia|apply Z.div_lt_upper_bound; unfold m; nia].
  - pose proof (p2 (e - sig f) ltac:(lia)). assert (EE : 2 ^ e = 2 ^ sig f * 2 ^ (e - sig f)) by (rewrite <- Z.pow_add_r by lia; f_equal; lia). unfold m. nia.
Qed.
Lemma fixuint_ok f r : std f -> finite (mant f) (ebits f) r ->
  fixuint f r = Z.max 0 (Z.min (2 ^ 128 - 1) (truncated (mant f) (ebits f) r)).
Proof.
  intros S F. pose proof (truncated_by f r S F) as T. pose proof (mant_bounds f r S F) as MB. cbv zeta in T, MB. destruct F as [Hr Hf]. destruct (read_fields f r S Hr) as (R1 & R2 & R3 & BE & BF & BS). rewrite T. unfold fixuint. cbv zeta. rewrite R1, R2, R3.
  set (e := exponent_field (mant f) (ebits f) r - bias f) in *. set (m := 2 ^ sig f + fraction_field (mant f) r) in *. destruct S as [G W]. destruct G as (G1 & G2 & G3 & G4). destruct (Z.ltb_spec e 0) as [N|N].
  { rewrite orb_true_r. reflexivity. }
  rewrite orb_false_r. specialize (MB N). set (v := if e <? sig f then m / 2 ^ (sig f - e) else m * 2 ^ (e - sig f)) in *. pose proof (p2 e N). destruct (Z.eqb_spec (sign_field (mant f) (ebits f) r) 0); cbn [negb].
  2:{ lia. }
  rewrite Z.mul_1_l. destruct (Z.leb_spec 128 e).
  - assert (2 ^ 128 <= 2 ^ e) by (apply Z.pow_le_mono_r; lia). lia.
  - assert (2 ^ (e + 1) <= 2 ^ 128) by (apply Z.pow_le_mono_r; lia). assert (V : (if e <? sig f then Z.shiftr m (sig f - e) else u128 (Z.shiftl m (e - sig f))) = v).
    { unfold v in *. destruct (Z.ltb_spec e (sig f)); [apply Z.shiftr_div_pow2; lia|]. rewrite Z.shiftl_mul_pow2 by lia. apply u128_small. lia. }
    rewrite V. lia.
Qed.
Lemma fixint_ok f r : std f -> finite (mant f) (ebits f) r -> is_int128 (truncated (mant f) (ebits f) r) -> fixint f r = truncated (mant f) (ebits f) r.
Proof.
  intros S F I. pose proof (truncated_by f r S F) as T. pose proof (mant_bounds f r S F) as MB. cbv zeta in T, MB. destruct F as [Hr Hf]. destruct (read_fields f r S Hr) as (R1 & R2 & R3 & BE & BF & BS). unfold is_int128 in I. rewrite T in *. unfold fixint. cbv zeta. rewrite R1, R2, R3.
  set (e := exponent_field (mant f) (ebits f) r - bias f) in *. set (m := 2 ^ sig f + fraction_field (mant f) r) in *. destruct S as [G W]. destruct G as (G1 & G2 & G3 & G4). destruct (Z.ltb_spec e 0) as [N|N]; [reflexivity|].
  specialize (MB N). set (v := if e <? sig f then m / 2 ^ (sig f - e) else m * 2 ^ (e - sig f)) in *. pose proof (p2 e N).
  assert (EB : e < 128). { destruct (Z.lt_ge_cases e 128); [assumption|]. assert (2 ^ 128 <= 2 ^ e) by (apply Z.pow_le_mono_r; lia). destruct (_ =? 0) in I; lia. }
  replace (128 <=? e) with false by lia. assert (SG : (if negb (sign_field (mant f) (ebits f) r =? 0) then -1 else 1) = (if sign_field (mant f) (ebits f) r =? 0 then 1 else -1)) by (destruct (_ =? 0); reflexivity). rewrite SG.
  set (s := if sign_field (mant f) (ebits f) r =? 0 then 1 else -1) in *. unfold v in *. destruct (Z.ltb_spec e (sig f)).
  - rewrite Z.shiftr_div_pow2 by lia. apply i128_small. exact I.
  - rewrite Z.shiftl_mul_pow2 by lia. set (u := m * 2 ^ (e - sig f)) in *. destruct (Z.lt_ge_cases u (2 ^ 127)) as [U|U].
    + rewrite (i128_small u) by lia. apply i128_small. exact I.
    + assert (s = -1 /\ u = 2 ^ 127) as [-> ->]. { unfold s in *. destruct (sign_field (mant f) (ebits f) r =? 0); [lia|]. split; [reflexivity|lia]. } reflexivity.
Qed.
