(** Square root. *)
From Coq Require Import ZArith List Bool Lia.
From Verif Require Import BigModel BigSpec BigProofs BigProofs2 BigProofs3 BigProofs4 BigProofs5 BigProofs6.
Import ListNotations.
Open Scope Z_scope.

Lemma pow2_bit e n : 0 <= e -> Z.testbit (2 ^ e) n = (e =? n).
Proof. intros. apply Z.pow2_bits_eqb. lia. Qed.
Lemma lxor_bit w e : 0 <= e -> Z.lxor w (2 ^ e) = if Z.testbit w e then w - 2 ^ e else w + 2 ^ e.
Proof.
  intros E. destruct (Z.testbit w e) eqn:T.
  - rewrite Z.sub_nocarry_ldiff.
    + apply Z.bits_inj'. intros n Hn. rewrite Z.lxor_spec, Z.ldiff_spec, pow2_bit by lia. destruct (Z.eqb_spec e n) as [->|]; [rewrite T; reflexivity|]. destruct (Z.testbit w n); reflexivity.
    + apply Z.bits_inj'. intros n Hn. rewrite Z.ldiff_spec, pow2_bit, Z.bits_0 by lia. destruct (Z.eqb_spec e n) as [->|]; [rewrite T; reflexivity|reflexivity].
  - symmetry. apply Z.add_nocarry_lxor. apply Z.bits_inj'. intros n Hn. rewrite Z.land_spec, pow2_bit, Z.bits_0 by lia. destruct (Z.eqb_spec e n) as [->|]; [rewrite T; reflexivity|apply andb_false_r].
Qed.
Lemma flip_spec d k : size d -> Forall word d -> (k < 32 * 256)%nat -> size (flip d k) /\ Forall word (flip d k) /\
  uval (flip d k) = (if Z.testbit (uval d) (Z.of_nat k) then uval d - 2 ^ Z.of_nat k else uval d + 2 ^ Z.of_nat k) /\ forall i, i <> (k / 32)%nat -> nth i (flip d k) 0 = nth i d 0.
Proof.
  intros S F K. unfold flip. assert (Q : (k / 32 < 256)%nat) by (apply Nat.div_lt_upper_bound; [discriminate|exact K]). set (w := nth (k / 32) d 0). pose proof (nth_word d (k / 32) F : 0 <= w < BB) as W.
  assert (M : 0 <= Z.of_nat (k mod 32) < 32) by (pose proof (Nat.mod_upper_bound k 32); lia).
  assert (Ww : word (Z.lxor w (2 ^ Z.of_nat (k mod 32)))).
  { assert (P : 0 <= Z.lxor w (2 ^ Z.of_nat (k mod 32))) by (apply Z.lxor_nonneg; split; intros; [apply Z.pow_nonneg; lia|lia]). apply word_mk. split; [exact P|]. change BB with (2 ^ 32).
    apply small_bits; auto; [lia|]. intros n Hn. rewrite Z.lxor_spec, pow2_bit by lia. rewrite (word_high w n) by lia. destruct (Z.eqb_spec (Z.of_nat (k mod 32)) n); [lia|reflexivity]. }
  split; [unfold size; rewrite set_length; exact S|]. split; [apply set_words; auto|]. split.
  - rewrite uval_set by (rewrite S; exact Q). rewrite lxor_bit by lia. fold w. rewrite uval_testbit by exact F. fold w.
    assert (P : 2 ^ Z.of_nat k = 2 ^ Z.of_nat (k mod 32) * pw (k / 32)). { rewrite pw_2, <- Z.pow_add_r by lia. f_equal. pose proof (Nat.div_mod k 32). lia. }
    rewrite P. destruct (Z.testbit w _); lia.
  - intros i Hi. rewrite nth_set by (rewrite S; exact Q). destruct (Nat.eqb_spec (k / 32) i); [congruence|reflexivity].
Qed.
Lemma loose_tight r x : loose r x -> x < Half -> (len r = 1%nat \/ pw (len r - 1) <= x) -> denotes r x.
Proof.
  intros [S F V L A] H C. pose proof (uval_bound _ F) as U. rewrite V in U. pose proof Full_Half. constructor; auto.
  - unfold in_range. lia.
  - rewrite Z.mod_small by lia. exact V.
  - destruct C as [C|C]; [auto|]. right. intros Z0. assert (T0 : tail0 (len r - 1) (data r)) by (intros i Hi; destruct (Nat.eq_dec i (len r - 1)) as [->|]; [exact Z0|apply A; lia]).
    pose proof (uval_low _ _ T0) as Ul. pose proof (uval_bound _ (firstn_words (len r - 1) _ F)) as Bd. rewrite <- Ul, firstn_length, S, V in Bd. replace (Nat.min (len r - 1) 256) with (len r - 1)%nat in Bd by lia. lia.
Qed.
Lemma loose_square g x : loose g x -> 0 < x -> (2 * len g <= 256)%nat -> (x * x < Half -> gives (mult g g) (x * x)) /\ (Half <= x * x -> stops (mult g g)).
Proof.
  intros Lg X L2. pose proof Lg as [S F V L A]. unfold mult.
  assert (Nz : is_zero g = false).
  { unfold is_zero. destruct (Nat.eqb_spec (len g) 1) as [E|]; [|reflexivity]. destruct (Z.eqb_spec (nth 0 (data g) 0) 0) as [E0|]; [|reflexivity]. exfalso. rewrite E in A.
    assert (uval (data g) = 0); [|lia]. apply uval_all0. intros [|i]; [exact E0|apply A; lia]. }
  rewrite Nz. pose proof Half_pos. destruct (is_one g) eqn:O.
  - unfold is_one in O. apply andb_true_iff in O. destruct O as [O1 O2]. apply Nat.eqb_eq in O1. apply Z.eqb_eq in O2.
    assert (x = 1) as ->. { rewrite <- V. destruct (data g) as [|w ws]; [discriminate|]. cbn [nth] in O2. rewrite uval_cons, (uval_all0 ws); [lia|]. intros i. apply (A (Datatypes.S i)). lia. }
    pose proof Half_top. pose proof (pw_pos 255). pose proof Full_Half. split; [|lia]. intros _. exists g. split; [reflexivity|]. change (1 * 1) with 1. apply loose_tight; [exact Lg|lia|left; exact O1].
  - assert (Ng : is_negative g = false).
    { unfold is_negative. rewrite neg_words_val by auto. pose proof (uval_low (len g) _ A) as U. pose proof (uval_bound _ (firstn_words (len g) _ F)) as Bd. rewrite <- U, firstn_length, S in Bd.
      pose proof (pw_le (Nat.min (len g) 256) 255 ltac:(lia)). pose proof Half_top. pose proof (pw_pos 255). lia. }
    rewrite !Ng. cbn [bind xorb]. destruct (loose_low g x Lg) as (G1 & G2 & G3). destruct (mul_loop _ _ _) as [d|] eqn:E.
    + destruct (mag_some g g x x d Lg Lg E) as (I1 & I2 & I3 & I4 & I5 & I6). cbv zeta. rewrite I5. split; intros H0.
      * destruct (Z.leb_spec Half (x * x)); [lia|]. eexists. split; [reflexivity|]. apply I6. lia.
      * destruct (Z.leb_spec Half (x * x)); [|lia]. exists Assert. split; [reflexivity|discriminate].
    + exfalso. revert E. apply mul_loop_some; auto; [rewrite G2, zeros_len; change MAX_LEN with 256%nat; lia|apply zeros_words|intros i _; apply nth_repeat].
Qed.
Lemma sqrt_loop_spec n N h : denotes n N -> 0 <= N < 2 ^ (2 * h) -> 0 <= h -> 2 * h <= 8190 -> forall p r R, loose r R -> (len r <= 128)%nat -> (p <= 32 * len r)%nat -> Z.of_nat p <= h + 1 ->
  R * R <= N -> N < (R + 2 ^ Z.of_nat p) * (R + 2 ^ Z.of_nat p) -> (2 ^ Z.of_nat p | R) -> exists r', sqrt_loop p n r = Ok r' /\ len r' = len r /\ loose r' (Z.sqrt N).
Proof.
  intros Dn HN Hh H8 p. induction p as [|k IH]; intros r R Lr L128 Lp Lh R1 R2 Dv; cbn [sqrt_loop].
  - exists r. split; [reflexivity|]. split; [reflexivity|]. change (2 ^ Z.of_nat 0) with 1 in R2. assert (P : 0 <= R). { rewrite <- (l_value _ _ Lr). apply uval_bound, (l_words _ _ Lr). }
    replace (Z.sqrt N) with R; [exact Lr|]. symmetry. apply Z.sqrt_unique. unfold Z.succ. lia.
  - pose proof Lr as [S F V L A]. assert (P : 0 <= R) by (rewrite <- V; apply uval_bound, F). rewrite Nat2Z.inj_succ, Z.pow_succ_r in * by lia. set (b := 2 ^ Z.of_nat k) in *. assert (Pb : 0 < b) by (apply Z.pow_pos_nonneg; lia).
    destruct (flip_spec (data r) k S F ltac:(lia)) as (F1 & F2 & F3 & F4). fold b in F3.
    assert (T : Z.testbit (uval (data r)) (Z.of_nat k) = false).
    { rewrite V. destruct Dv as [q ->]. replace (q * (2 * b)) with (q * 2 ^ (Z.of_nat k + 1)) by (rewrite Z.pow_add_r by lia; fold b; lia). apply Z.mul_pow2_bits_low. lia. }
    rewrite T, V in F3. assert (Kd : (k / 32 < len r)%nat) by (apply Nat.div_lt_upper_bound; lia).
    assert (Lg : loose (Big (flip (data r) k) (len r)) (R + b)). { constructor; cbn [data len]; auto. intros i Hi. rewrite F4 by lia. apply A, Hi. }
    assert (Gb : R + b <= 2 ^ h).
    { assert (R < 2 ^ h). { destruct (Z.lt_ge_cases R (2 ^ h)) as [|G]; [auto|]. assert (2 ^ (2 * h) = 2 ^ h * 2 ^ h) by (rewrite <- Z.pow_add_r by lia; f_equal; lia). pose proof (Z.pow_pos_nonneg 2 h). nia. }
      destruct Dv as [q Eq]. assert (E : 2 ^ h = 2 ^ (h - Z.of_nat k) * b) by (unfold b; rewrite <- Z.pow_add_r by lia; f_equal; lia). set (c := 2 ^ (h - Z.of_nat k)) in *. clearbody c b. rewrite E, Eq in *. assert (Q2 : 2 * q < c) by nia. nia. }
    assert (Sq : (R + b) * (R + b) < Half).
    { assert (2 ^ h * 2 ^ h < Half); [|nia]. rewrite <- Z.pow_add_r by lia. rewrite Half_2. apply Z.pow_lt_mono_r; lia. }
    destruct (loose_square _ _ Lg ltac:(lia) ltac:(cbn [len]; lia)) as [LS _]. destruct (LS Sq) as (s & -> & Ds). cbn [bind]. rewrite (proj2 (order_spec s n _ _ Ds Dn)).
    destruct (Z.ltb_spec N ((R + b) * (R + b))) as [Lt|Ge].
    + destruct (flip_spec (flip (data r) k) k F1 F2 ltac:(lia)) as (H1 & H2 & H3 & H4). fold b in H3.
      assert (T2 : Z.testbit (uval (flip (data r) k)) (Z.of_nat k) = true).
      { rewrite F3. destruct Dv as [q ->]. replace (q * (2 * b) + b) with ((2 * q + 1) * 2 ^ Z.of_nat k) by (fold b; lia). rewrite Z.mul_pow2_bits by lia. rewrite Z.sub_diag, Z.bit0_odd, Z.add_comm, Z.odd_add_mul_2. reflexivity. }
      rewrite T2, F3 in H3. replace (R + b - b) with R in H3 by lia. cbn [data].
      destruct (IH (Big (flip (flip (data r) k) k) (len r)) R) as (r' & E1 & E2 & E3); cbn [len]; try lia; auto.
      * constructor; cbn [data len]; auto. intros i Hi. rewrite H4, F4 by lia. apply A, Hi.
      * destruct Dv as [q ->]. exists (q * 2). lia.
      * exists r'. auto.
    + destruct (IH (Big (flip (data r) k) (len r)) (R + b)) as (r' & E1 & E2 & E3); cbn [len]; try lia; auto.
      * destruct Dv as [q ->]. exists (q * 2 + 1). lia.
      * exists r'. auto.
Qed.
Lemma sqrt_params N : 0 < N -> let bits := Z.log2 N + 1 in let half := if Z.odd bits then bits / 2 + 1 else bits / 2 in 1 <= half /\ 2 * half - 1 <= bits <= 2 * half /\ N < 2 ^ (2 * half) /\ 2 ^ (half - 1) * 2 ^ (half - 1) <= N.
Proof.
  intros P bits half. pose proof (Z.log2_nonneg N). pose proof (Z.log2_spec N P) as [L1 L2]. assert (Hb : 2 * half - 1 <= bits <= 2 * half).
  { unfold half. pose proof (Z.div_mod bits 2 ltac:(lia)) as DM. rewrite Zmod_odd in DM. destruct (Z.odd bits); lia. }
  split; [lia|]. split; [exact Hb|]. split.
  - eapply Z.lt_le_trans; [exact L2|]. apply Z.pow_le_mono_r; unfold bits in *; lia.
  - rewrite <- Z.pow_add_r by lia. eapply Z.le_trans; [|exact L1]. apply Z.pow_le_mono_r; unfold bits in *; lia.
Qed.
Lemma zeros_loose n : (1 <= n <= 256)%nat -> loose (Big (zeros MAX_LEN) n) 0.
Proof. intros L. constructor; cbn [data len]; [unfold size; apply zeros_len|apply zeros_words|apply uval_zeros|exact L|intros i _; apply nth_repeat]. Qed.
Lemma sqrt_spec n N : denotes n N -> 0 < N < 2 ^ 8190 -> gives (sqrt n) (Z.sqrt N).
Proof.
  intros D [P PU]. assert (Lg : Z.log2 N < 8190) by (apply Z.log2_lt_pow2; [exact P|exact PU]). assert (NH : N < Half). { eapply Z.lt_trans; [exact PU|]. rewrite Half_2. apply Z.pow_lt_mono_r; reflexivity || discriminate. } clear PU.
  unfold sqrt. rewrite (bitcount_spec n N D). destruct (Z.eqb_spec N 0); [lia|]. destruct (Z.ltb_spec N 0); [lia|]. cbv zeta.
  destruct (sqrt_params N ltac:(lia)) as (Q1 & Q2 & Q3 & Q4). cbv zeta in *. set (half := if Z.odd (Z.log2 N + 1) then (Z.log2 N + 1) / 2 + 1 else (Z.log2 N + 1) / 2) in *. clearbody half.
  assert (Hh : 2 * half <= 8190) by (assert (Ev : 2 * half - 1 < 8190) by lia; lia).
  pose proof (Z.div_mod half 32 ltac:(lia)) as DM. pose proof (Z.mod_pos_bound half 32 ltac:(lia)) as MB.
  set (bp := if half mod 32 =? 0 then half / 32 else half / 32 + 1). set (top := if half mod 32 =? 0 then half else half + 1).
  assert (Hp : 1 <= bp <= 128 /\ half <= 32 * bp < half + 32 /\ top <= 32 * bp /\ half <= top <= half + 1) by (unfold bp, top; destruct (Z.eqb_spec (half mod 32) 0); lia). clearbody bp top.
  destruct (sqrt_loop_spec n N half D ltac:(lia) ltac:(lia) ltac:(lia) (Z.to_nat top) (Big (zeros MAX_LEN) (Z.to_nat bp)) 0) as (r & E1 & E2 & E3); cbn [len]; try lia.
  - apply zeros_loose. lia.
  - rewrite Z2Nat.id by lia. rewrite !Z.add_0_l, <- Z.pow_add_r by lia. eapply Z.lt_le_trans; [exact Q3|]. apply Z.pow_le_mono_r; lia.
  - apply Z.divide_0_r.
  - rewrite E1. exists r. split; [reflexivity|]. pose proof (Z.sqrt_spec N ltac:(lia)) as SQ. cbv zeta in SQ. pose proof (Z.sqrt_nonneg N). apply loose_tight; auto.
    + assert (Z.sqrt N <= N) by nia. lia.
    + rewrite E2. cbn [len]. right. rewrite pw_2. eapply Z.le_trans; [apply (Z.pow_le_mono_r 2 _ (half - 1)); lia|]. pose proof (Z.pow_pos_nonneg 2 (half - 1)). unfold Z.succ in SQ. nia.
Qed.
Lemma roots : exists u, 0 < u /\ 2 ^ 4094 = u /\ 2 ^ 4095 = 2 * u /\ 2 ^ 8190 = 4 * (u * u) /\ Half = 8 * (u * u).
Proof.
  exists (2 ^ 4094). split; [apply Z.pow_pos_nonneg; discriminate || reflexivity|]. split; [reflexivity|]. assert (E : 2 ^ 4094 * 2 ^ 4094 = 2 ^ 8188) by (rewrite <- Z.pow_add_r by discriminate; reflexivity). rewrite E. rewrite Half_2.
  change 4 with (2 ^ 2). change 8 with (2 ^ 3). rewrite <- !Z.pow_add_r by discriminate. change 4095 with (Z.succ 4094) at 1. rewrite Z.pow_succ_r by discriminate. repeat split.
Qed.
Lemma sqrt_two n N u k : denotes n N -> 0 < u -> 2 ^ Z.of_nat k = u -> Half = 8 * (u * u) -> 4 * (u * u) <= N -> (S k < 32 * 256)%nat -> (S k / 32 = 127)%nat -> (k / 32 = 127)%nat -> stops (sqrt_loop (S (S k)) n (Big (zeros MAX_LEN) 128)).
Proof.
  intros D U E0 E3 P K5 K1 K2.
  assert (Step : forall k, sqrt_loop (S k) n = fun r => let g := Big (flip (data r) k) (len r) in do s <- mult g g; sqrt_loop k n (if greater_than s n then Big (flip (data g) k) (len r) else g)) by reflexivity.
  rewrite Step. cbv beta zeta. cbn [data len]. set (z0 := zeros MAX_LEN).
  assert (Z0 : uval z0 = 0) by apply uval_zeros.
  destruct (flip_spec z0 (S k) (zeros_len 256) (zeros_words 256) K5) as (F1 & F2 & F3 & F4). rewrite Z0, Z.bits_0, Z.add_0_l in F3.
  rewrite Nat2Z.inj_succ, Z.pow_succ_r, E0 in F3 by lia. rewrite K1 in F4.
  assert (A1 : tail0 128 (flip z0 (S k))) by (intros i Hi; rewrite F4 by lia; apply nth_repeat).
  assert (L1 : loose (Big (flip z0 (S k)) 128) (2 * u)) by (constructor; cbn [data len]; auto; lia).
  destruct (loose_square _ _ L1) as [LS _]; [lia|cbn [len]; lia|]. destruct LS as (s & -> & Ds); [nia|]. cbn [bind]. rewrite (proj2 (order_spec s n _ _ Ds D)). destruct (Z.ltb_spec N (2 * u * (2 * u))); [nia|].
  rewrite Step. cbv beta zeta. cbn [data len]. destruct (flip_spec _ k F1 F2 ltac:(lia)) as (G1 & G2 & G3 & G4).
  assert (T : Z.testbit (uval (flip z0 (S k))) (Z.of_nat k) = false) by (rewrite F3; replace (2 * u) with (2 ^ (Z.of_nat k + 1)) by (rewrite Z.pow_add_r by lia; lia); rewrite pow2_bit by lia; lia).
  rewrite T, F3, E0 in G3. rewrite K2 in G4.
  assert (L2 : loose (Big (flip (flip z0 (S k)) k) 128) (2 * u + u)) by (constructor; cbn [data len]; auto; [lia|intros i Hi; rewrite G4 by lia; apply A1, Hi]).
  destruct (loose_square _ _ L2) as [_ LS]; [lia|cbn [len]; lia|]. destruct LS as (w & -> & Nw); [nia|]. exists w. auto.
Qed.
Lemma sqrt_big n N : denotes n N -> 2 ^ 8190 <= N -> stops (sqrt n).
Proof.
  destruct roots as (u & U & E0 & E1 & E2 & E3). intros D P. pose proof (d_range _ _ D) as R. unfold in_range in R.
  assert (Lg : Z.log2 N = 8190) by (apply Z.log2_unique; [discriminate|]; change (Z.succ 8190) with 8191; rewrite <- Half_2; split; [exact P|apply R]).
  rewrite E2 in P. rewrite E3 in R. unfold sqrt. rewrite (bitcount_spec n N D). destruct (Z.eqb_spec N 0); [nia|]. destruct (Z.ltb_spec N 0); [nia|]. rewrite Lg. cbv zeta.
  set (half := if Z.odd (8190 + 1) then (8190 + 1) / 2 + 1 else (8190 + 1) / 2). assert (EH : half = 4096) by reflexivity. rewrite EH. clear half EH. change (4096 mod 32 =? 0) with true. cbv iota. change (4096 / 32) with 128. change (Z.to_nat 128) with 128%nat.
  assert (EK : exists k, Z.to_nat 4096 = S (S k) /\ Z.of_nat k = 4094) by (exists (Z.to_nat 4094); split; lia). destruct EK as (k & EK & ZK). rewrite EK.
  apply (sqrt_two n N u k D U); [rewrite ZK; exact E0|exact E3|exact P|lia|symmetry; apply (Nat.div_unique (S k) 32 127 31); lia|symmetry; apply (Nat.div_unique k 32 127 30); lia].
Qed.
