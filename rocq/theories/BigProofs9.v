(** Greatest common divisor and modular power. *)
From Coq Require Import ZArith List Bool Lia Znumtheory Zpow_facts.
From Verif Require Import BigModel BigSpec BigProofs BigProofs2 BigProofs3 BigProofs4 BigProofs5 BigProofs6.
Import ListNotations.
Open Scope Z_scope.

Lemma abs_spec a x : denotes a x -> x <> - Half -> gives (abs a) (Z.abs x).
Proof.
  intros D N. unfold abs, unary_minus. rewrite (neg_iff a x D), (is_zero_spec a x D). destruct (Z.ltb_spec x 0).
  - destruct (Z.eqb_spec x 0); [lia|]. rewrite Z.abs_neq by lia. apply negate_spec; auto.
  - rewrite Z.abs_eq by lia. exists a. auto.
Qed.
Lemma gcd_loop_S f x y g : gcd_loop (S f) x y g = if is_zero x then Ok g else do m <- mod_ y x; gcd_loop f m x x. Proof. reflexivity. Qed.
Lemma gcd_loop_spec k : forall f x y X Y, (2 * k + 1 <= f)%nat -> denotes x X -> denotes y Y -> 0 <= X < 2 ^ Z.of_nat k -> X < BB -> 0 <= Y -> gives (gcd_loop f x y y) (Z.gcd X Y).
Proof.
  pose proof Half_pos as HP. assert (M : forall x y X Y, denotes x X -> denotes y Y -> 0 < X < BB -> 0 <= Y -> gives (mod_ y x) (Y mod X)).
  { intros x y X Y Dx Dy HX HY. rewrite <- Z.rem_mod_nonneg by lia. apply mod_spec; auto; lia. }
  induction k as [|k IH]; intros f x y X Y Hf Dx Dy HX HB HY.
  - change (2 ^ Z.of_nat 0) with 1 in HX. assert (X = 0) as -> by lia. destruct f as [|f]; [lia|]. rewrite gcd_loop_S, (is_zero_spec x 0 Dx). cbn [Z.eqb]. rewrite Z.gcd_0_l, Z.abs_eq by lia. exists y. auto.
  - destruct f as [|[|f]]; [lia|lia|]. rewrite gcd_loop_S, (is_zero_spec x X Dx). destruct (Z.eqb_spec X 0) as [->|N]; [rewrite Z.gcd_0_l, Z.abs_eq by lia; exists y; auto|].
    destruct (M x y X Y Dx Dy) as (m & -> & Dm); [lia|lia|]. cbn [bind]. pose proof (Z.mod_pos_bound Y X ltac:(lia)) as MB. rewrite gcd_loop_S, (is_zero_spec m _ Dm).
    rewrite <- Z.gcd_mod by lia. destruct (Z.eqb_spec (Y mod X) 0) as [E|N2].
    + rewrite E, Z.gcd_0_l, Z.abs_eq by lia. exists x. auto.
    + destruct (M m x _ X Dm Dx) as (m2 & -> & Dm2); [lia|lia|]. cbn [bind]. rewrite <- Z.gcd_mod by lia. pose proof (Z.mod_pos_bound X (Y mod X) ltac:(lia)) as MB2. apply IH; auto; try lia.
      split; [lia|]. rewrite Nat2Z.inj_succ, Z.pow_succ_r in HX by lia. pose proof (Z.div_mod X (Y mod X) ltac:(lia)) as DM. assert (1 <= X / (Y mod X)) by (apply Z.div_le_lower_bound; lia). nia.
Qed.
Lemma gcd_spec a b x y : denotes a x -> denotes b y -> x <> - Half -> y <> - Half -> (Z.abs x < BB \/ Z.abs y < BB) -> gives (gcd a b) (Z.gcd x y).
Proof.
  intros Da Db Nx Ny C. unfold gcd. destruct (abs_spec a x Da Nx) as (a1 & -> & D1). destruct (abs_spec b y Db Ny) as (b1 & -> & D2). cbn [bind]. rewrite <- Z.gcd_abs_l, <- Z.gcd_abs_r.
  assert (F : (2 * 32 + 2 <= 64 * MAX_LEN + 2)%nat) by (change MAX_LEN with 256%nat; lia).
  destruct (Z.lt_ge_cases (Z.abs x) BB) as [L|L]; [apply (gcd_loop_spec 32); auto; [lia|split; [lia|exact L]|lia]|].
  destruct C as [C|C]; [lia|]. destruct (64 * MAX_LEN + 2)%nat as [|f]; [lia|]. rewrite gcd_loop_S, (is_zero_spec a1 _ D1). destruct (Z.eqb_spec (Z.abs x) 0); [lia|].
  pose proof Half_pos. destruct (mod_spec b1 a1 _ _ D2 D1) as (m & -> & Dm); try lia. cbn [bind]. rewrite Z.rem_small in Dm by lia. rewrite Z.gcd_comm. apply (gcd_loop_spec 32); auto; [lia|split; [lia|exact C]|lia].
Qed.
Lemma lcm_spec a b x y : denotes a x -> denotes b y -> x <> - Half -> y <> - Half -> (Z.abs x < BB \/ Z.abs y < BB) -> (x <> 0 \/ y <> 0) -> Z.abs (x * y) < Half -> gives (lcm a b) (Z.lcm x y).
Proof.
  intros Da Db Nx Ny C NZ L. unfold lcm. destruct (abs_spec a x Da Nx) as (a1 & -> & D1). destruct (abs_spec b y Db Ny) as (b1 & -> & D2). cbn [bind]. pose proof Half_pos.
  destruct (mult_spec b1 a1 _ _ D2 D1) as (_ & _ & MS). assert (E : Z.abs (Z.abs y * Z.abs x) = Z.abs (x * y)) by (rewrite !Z.abs_mul; lia). destruct MS as (p & -> & Dp); [lia|lia|lia|]. cbn [bind].
  destruct (gcd_spec a1 b1 _ _ D1 D2) as (d & -> & Dd); [lia|lia|lia|]. cbn [bind]. rewrite Z.gcd_abs_l, Z.gcd_abs_r in Dd. pose proof (Z.gcd_nonneg x y) as G0.
  assert (G1 : Z.gcd x y <> 0) by (intros G; apply Z.gcd_eq_0 in G; lia).
  assert (Q : Z.quot (Z.abs y * Z.abs x) (Z.gcd x y) = Z.lcm x y).
  { rewrite Z.quot_div_nonneg by (try apply Z.mul_nonneg_nonneg; lia). unfold Z.lcm. replace (Z.abs y * Z.abs x) with (Z.abs (x * y)) by (rewrite Z.abs_mul; lia).
    destruct (Z.gcd_divide_r x y) as [t Et]. set (G := Z.gcd x y) in *. clearbody G. rewrite Et. rewrite (Z.div_mul t G), Z.mul_assoc, Z.abs_mul, (Z.abs_eq G), Z.div_mul by lia. reflexivity. }
  assert (NN : 0 <= Z.abs y * Z.abs x) by (apply Z.mul_nonneg_nonneg; lia). rewrite <- Q. apply div_spec; [exact Dp|exact Dd|lia|lia|exact G1|].
  destruct (Z.eq_dec x 0) as [->|Zx]; [right; change (Z.abs 0) with 0; rewrite Z.mul_0_r; change (Z.abs 0) with 0; lia|]. destruct (Z.eq_dec y 0) as [->|Zy]; [right; change (Z.abs 0) with 0; rewrite Z.mul_0_l; change (Z.abs 0) with 0; lia|]. left. rewrite Z.abs_eq by lia.
  destruct (Z.gcd_divide_l x y) as [s Es], (Z.gcd_divide_r x y) as [t Et]. destruct C as [C|C]; [rewrite Es in C|rewrite Et in C]; rewrite Z.abs_mul, (Z.abs_eq (Z.gcd x y)) in C by lia; [assert (s <> 0) by (intros ->; lia)|assert (t <> 0) by (intros ->; lia)]; nia.
Qed.

(** Barrett reduction by one word. *)
Lemma trim x X : denotes x X -> Big (firstn (len x) (data x) ++ zeros (MAX_LEN - len x)) (len x) = x.
Proof.
  intros D. destruct x as [d n]. cbn [data len]. f_equal. pose proof (d_len _ _ D) as L. cbn [len] in L. pose proof (d_size _ _ D) as S. cbn [data] in S. pose proof (d_above _ _ D) as A. cbn [data len] in A.
  rewrite <- (firstn_skipn n d) at 2. f_equal. change MAX_LEN with 256%nat. apply (nth_ext _ _ 0 0); [rewrite zeros_len, skipn_length; lia|]. intros i Hi. rewrite zeros_len in Hi. rewrite <- nth_firstn_skip, A by lia. apply nth_repeat.
Qed.
Lemma take_off_spec n m : denotes n m -> 0 < m -> forall f r v, denotes r v -> 0 <= v < Z.of_nat f * m -> gives (take_off f r n) (v mod m).
Proof.
  intros Dn M. induction f as [|f IH]; intros r v Dr V; [lia|]. cbn [take_off]. rewrite (greater_or_equal_spec r n v m Dr Dn). destruct (Z.leb_spec m v).
  - pose proof (d_range _ _ Dr) as R. unfold in_range in R. destruct (sub_spec r n v m Dr Dn) as [S _]. destruct S as (r2 & -> & D2); [unfold in_range; lia|]. cbn [bind].
    replace (v mod m) with ((v - m) mod m); [apply IH; auto; lia|]. rewrite <- (Z_mod_plus_full (v - m) 1 m). f_equal. lia.
  - rewrite Z.mod_small by lia. exists r. auto.
Qed.
Lemma words3 d v : size d -> Forall word d -> uval d = v -> v < BB * BB * BB -> nth 2 d 0 = v / (BB * BB) /\ forall i, (3 <= i)%nat -> nth i d 0 = 0.
Proof.
  intros S F U V. split; [|apply uval_small; [exact F|]; change (pw 3) with (BB * BB * BB); lia].
  destruct d as [|a [|b [|c d]]]; try discriminate. inversion F as [|? ? Wa F1]; inversion F1 as [|? ? Wb F2]; inversion F2 as [|? ? Wc F3]; subst. apply word_lim in Wa, Wb, Wc. cbn [nth].
  assert (Z0 : uval d = 0). { pose proof (uval_bound d F3). rewrite !uval_cons in V. lia. }
  rewrite !uval_cons, Z0. apply (Z.div_unique_pos _ _ _ (a + BB * b)); lia.
Qed.
Lemma low_part Q m : 0 <= Q < BB -> 0 <= m < BB -> denotes (reduce_len (low_loop [Q] [m] (zeros MAX_LEN) 2) 2) (Q * m).
Proof.
  intros HQ HM. assert (P : 0 <= Q * m <= 18446744065119617025) by nia. assert (HT : BB * BB <= Half) by (pose proof Half_top; pose proof (pw_le 1 255 ltac:(lia)) as P1; change (pw 1) with BB in P1; pose proof (pw_le 2 255 ltac:(lia)) as P2; change (pw 2) with (BB * BB) in P2; lia).
  assert (E : exists a b, low_loop [Q] [m] (zeros MAX_LEN) 2 = [a; b] ++ zeros (MAX_LEN - length [a; b]) /\ 0 <= a < BB /\ 0 <= b < BB /\ a + BB * b = Q * m).
  { change (zeros MAX_LEN) with (0 :: 0 :: zeros 254). change (zeros (MAX_LEN - 2)) with (zeros 254). cbn [low_loop]. destruct (Z.eqb_spec Q 0) as [->|N].
    - exists 0, 0. cbn [low_loop app length]. split; [reflexivity|]. lia.
    - cbn [low_row]. rewrite (u64_small (Q * m)) by lia. rewrite u64_small by lia. unfold B. rewrite !Z.add_0_r. pose proof (Z.div_mod (Q * m) BB ltac:(lia)). pose proof (Z.mod_pos_bound (Q * m) BB ltac:(lia)).
      rewrite u32_small by lia. eexists. eexists. split; [reflexivity|]. lia. }
  destruct E as (a & b & -> & Ha & Hb & E). apply pad_reduce; cbn [length]; try lia; [repeat constructor; apply word_mk; lia|]. rewrite !uval_cons. change (uval []) with 0. lia.
Qed.
Lemma two_words x X : denotes x X -> 0 <= X < BB * BB -> (len x <= 2)%nat.
Proof.
  intros D P. destruct (len_bounds x X D) as (_ & B2 & _). cbv zeta in B2. rewrite (mod_Full_range X (d_range _ _ D)) in B2. destruct (Z.ltb_spec X 0); [lia|]. destruct B2 as [->|B2]; [lia|].
  destruct (Nat.le_gt_cases (len x) 2); [auto|]. pose proof (pw_le 2 (len x - 1) ltac:(lia)) as M. change (pw 2) with (BB * BB) in M. lia.
Qed.
Lemma barrett_spec x n c X m : denotes x X -> denotes n m -> denotes c (BB * BB / m) -> 2 <= m < BB -> 1 <= X < m * m -> gives (barrett_reduction x n c) (X mod m).
Proof.
  intros Dx Dn Dc HM HX. unfold barrett_reduction. rewrite (small_len n m Dn) by lia. cbv zeta. assert (HH : BB * BB * BB * BB <= Half). { pose proof (pw_le 4 255 ltac:(lia)) as P2. change (pw 4) with (BB * (BB * (BB * (BB * 1)))) in P2. pose proof Half_top. lia. }
  set (C := BB * BB / m) in *. pose proof (Z.div_mod (BB * BB) m ltac:(lia)) as DC. fold C in DC. pose proof (Z.mod_pos_bound (BB * BB) m ltac:(lia)) as MC. set (rho := (BB * BB) mod m) in *. clearbody C rho.
  assert (HC : BB < C < BB * BB) by nia. assert (X2 : X < BB * BB) by nia. pose proof (d_len _ _ Dx) as Lx. pose proof (two_words x X Dx ltac:(lia)) as Lx2.
  change (1 - 1)%nat with O. change (1 + 1)%nat with 2%nat. assert (Nat.ltb (len x) 0 = false) as -> by (apply Nat.ltb_ge; lia).
  rewrite Nat.sub_0_r. destruct (Nat.eqb_spec (len x) 0); [lia|]. cbn [skipn]. rewrite (trim x X Dx).
  destruct (mult_spec x c X C Dx Dc) as (_ & _ & MS). assert (XC : BB < X * C < m * (BB * BB)) by nia. destruct MS as (q2 & -> & Dq); [lia|lia|nia|]. cbn [bind].
  assert (L2 : (2 <= len q2)%nat). { pose proof (d_len _ _ Dq). destruct (Nat.eq_dec (len q2) 1) as [E|]; [|lia]. pose proof (one_word q2 _ Dq ltac:(lia) E). lia. }
  assert (Nat.ltb (len q2) 2 = false) as -> by (apply Nat.ltb_ge; lia).
  assert (U : uval (data q2) = X * C). { rewrite (d_value _ _ Dq), (mod_Full_range _ (d_range _ _ Dq)). destruct (Z.ltb_spec (X * C) 0); lia. }
  destruct (words3 (data q2) (X * C) (d_size _ _ Dq) (d_words _ _ Dq) U) as [W2 W3]; [nia|]. set (Q := X * C / (BB * BB)) in *.
  pose proof (Z.div_mod (X * C) (BB * BB) ltac:(lia)) as DQ. fold Q in DQ. pose proof (Z.mod_pos_bound (X * C) (BB * BB) ltac:(lia)) as MQ. set (sig := (X * C) mod (BB * BB)) in *.
  assert (HQ : 0 <= Q < m) by (split; [apply Z.div_pos; lia|apply Z.div_lt_upper_bound; lia]). clearbody Q sig.
  assert (L3 : (len q2 <= 3)%nat). { destruct (d_last _ _ Dq) as [E|E]; [lia|]. destruct (Nat.le_gt_cases (len q2) 3); [auto|]. destruct E. apply W3. lia. }
  set (q3 := if Nat.eqb (len q2 - 2) 0 then _ else _).
  assert (Q3 : firstn (len q3) (data q3) = [Q]).
  { unfold q3. destruct (Nat.eqb_spec (len q2 - 2) 0) as [E|E].
    - cbn [len data]. change (firstn 1 (zeros MAX_LEN)) with [0]. f_equal. rewrite <- W2. symmetry. apply (d_above _ _ Dq). lia.
    - replace (len q2 - 2)%nat with 1%nat by lia. cbn [len data]. pose proof (d_size _ _ Dq) as S. destruct (data q2) as [|w0 [|w1 [|w2 ws]]]; try discriminate. cbn [skipn firstn app nth] in *. congruence. }
  rewrite Q3. clearbody q3. rewrite (Nat.min_r 2 (len x)) by lia. rewrite (trim x X Dx).
  pose proof (one_word n m Dn ltac:(lia) (small_len n m Dn ltac:(lia))) as [Wn _]. assert (firstn 1 (data n) = [m]) as ->. { pose proof (d_size _ _ Dn) as S. destruct (data n) as [|w ws]; [discriminate|]. cbn in *. congruence. }
  pose proof (low_part Q m ltac:(lia) ltac:(lia)) as Dr2.
  assert (V1 : 0 <= X - Q * m < 2 * m).
  { assert (K : (X - Q * m) * (BB * BB) = X * rho + m * sig) by (rewrite (Z.mul_sub_distr_r X (Q * m)); replace (Q * m * (BB * BB)) with (m * (X * C - sig)) by nia; rewrite DC at 1; nia).
    assert (0 <= X * rho) by nia. assert (0 <= m * sig) by nia. assert (X * rho < BB * BB * m) by nia. assert (m * sig < m * (BB * BB)) by nia. split; nia. }
  destruct (sub_spec x _ X _ Dx Dr2) as [SB _]. destruct SB as (r1 & -> & D1); [unfold in_range; lia|]. cbn [bind]. rewrite (neg_iff r1 _ D1). destruct (Z.ltb_spec (X - Q * m) 0); [lia|]. cbn [bind].
  replace (X mod m) with ((X - Q * m) mod m). - apply take_off_spec; auto; [lia|]. change (Z.of_nat 300) with 300. lia. - rewrite <- (Z_mod_plus_full (X - Q * m) Q m). f_equal. lia.
Qed.

Lemma bits_half e i : 0 <= e -> e / 2 ^ Z.of_nat i = 2 * (e / 2 ^ Z.of_nat (S i)) + Z.b2z (Z.testbit e (Z.of_nat i)).
Proof.
  intros E. assert (P : e / 2 ^ Z.of_nat (S i) = e / 2 ^ Z.of_nat i / 2).
  { rewrite Nat2Z.inj_succ, Z.pow_succ_r, Z.mul_comm, Z.div_div by (try apply Z.pow_pos_nonneg; try apply Z.pow_nonzero; lia). reflexivity. }
  rewrite P, Z.testbit_spec' by lia. apply Z.div_mod. lia.
Qed.
Lemma prime_nz m x : 2 <= m -> rel_prime m x -> x mod m <> 0.
Proof.
  intros M R E. apply Z.mod_divide in E; [|lia]. assert (D : (m | 1)) by (destruct R as [_ _ R]; apply R; [apply Z.divide_refl|exact E]). apply Z.divide_1_r_nonneg in D; lia.
Qed.
Lemma pow_loop_spec ex e n m c : denotes ex e -> 0 <= e -> denotes n m -> denotes c (BB * BB / m) -> 2 <= m < BB -> forall k i nb rb A r, denotes nb A -> denotes rb r -> 0 <= A < m -> 0 <= r < m -> rel_prime m A -> rel_prime m r ->
  e < 2 ^ Z.of_nat (i + k) -> gives (pow_loop k i ex nb rb n c) ((r * A ^ (e / 2 ^ Z.of_nat i)) mod m).
Proof.
  intros De E0 Dn Dc HM. assert (HH : BB * BB < Half). { pose proof (pw_lt 2 255 ltac:(lia)) as P2. change (pw 2) with (BB * (BB * 1)) in P2. pose proof Half_top. lia. }
  assert (MB : forall a b x y, denotes a x -> denotes b y -> 0 <= x < m -> 0 <= y < m -> rel_prime m x -> rel_prime m y -> exists p q, mult a b = Ok p /\ barrett_reduction p n c = Ok q /\ denotes q (x * y mod m) /\ rel_prime m (x * y mod m)).
  { intros a b x y Da Db Hx Hy Rx Ry. assert (Nx : x <> 0) by (intros ->; apply (prime_nz m 0 ltac:(lia) Rx), Zmod_0_l). assert (Ny : y <> 0) by (intros ->; apply (prime_nz m 0 ltac:(lia) Ry), Zmod_0_l).
    destruct (mult_spec a b x y Da Db) as (_ & _ & MS). destruct MS as (p & Ep & Dp); [lia|lia|rewrite Z.abs_eq by nia; nia|]. destruct (barrett_spec p n c (x * y) m Dp Dn Dc HM) as (q & Eq & Dq); [nia|].
    exists p, q. split; [exact Ep|]. split; [exact Eq|]. split; [exact Dq|]. apply rel_prime_sym. apply rel_prime_mod; [lia|]. apply rel_prime_sym. apply rel_prime_mult; auto. }
  induction k as [|k IH]; intros i nb rb A r Da Dr HA Hr RA Rr L; cbn [pow_loop].
  - rewrite Nat.add_0_r in L. rewrite (Z.div_small e) by lia. rewrite Z.pow_0_r, Z.mul_1_r, Z.mod_small by lia. exists rb. auto.
  - assert (Tb : Z.testbit (nth (i / 32) (data ex) 0) (Z.of_nat (i mod 32)) = Z.testbit e (Z.of_nat i)).
    { rewrite <- (uval_testbit _ (d_words _ _ De)), (d_value _ _ De), (mod_Full_range _ (d_range _ _ De)). destruct (Z.ltb_spec e 0); [lia|reflexivity]. }
    rewrite Tb. set (bt := Z.testbit e (Z.of_nat i)) in *.
    assert (R1 : exists rb', (if bt then do p <- mult rb nb; barrett_reduction p n c else Ok rb) = Ok rb' /\ denotes rb' ((r * A ^ Z.b2z bt) mod m) /\ rel_prime m ((r * A ^ Z.b2z bt) mod m)).
    { destruct bt; cbn [Z.b2z].
      - destruct (MB rb nb r A Dr Da Hr HA Rr RA) as (p & q & -> & Eq & Dq & Rq). cbn [bind]. rewrite Z.pow_1_r. exists q. auto.
      - rewrite Z.pow_0_r, Z.mul_1_r, Z.mod_small by lia. exists rb. auto. }
    destruct R1 as (rb' & -> & Dr' & Rr'). cbn [bind]. destruct (MB nb nb A A Da Da HA HA RA RA) as (p & nb' & -> & Eq & Dn' & Rn'). cbn [bind]. rewrite Eq. cbn [bind]. rewrite (is_one_spec nb' _ Dn').
    pose proof (Z.mod_pos_bound (r * A ^ Z.b2z bt) m ltac:(lia)) as M1. pose proof (Z.mod_pos_bound (A * A) m ltac:(lia)) as M2. set (q := e / 2 ^ Z.of_nat (S i)).
    assert (Q0 : 0 <= q) by (apply Z.div_pos; [lia|apply Z.pow_pos_nonneg; lia]).
    assert (K : (r * A ^ (e / 2 ^ Z.of_nat i)) mod m = ((r * A ^ Z.b2z bt) mod m * (A * A mod m) ^ q) mod m).
    { rewrite (bits_half e i E0). fold q bt. rewrite Z.mul_mod_idemp_l by lia. rewrite <- (Z.mul_mod_idemp_r _ ((A * A mod m) ^ q)), <- Zpower_mod, Z.mul_mod_idemp_r by lia.
      assert (B0 : 0 <= Z.b2z bt) by (destruct bt; cbn [Z.b2z]; lia). rewrite Z.pow_add_r, Z.pow_mul_r by lia. rewrite (Z.pow_2_r A). f_equal. ring. }
    rewrite K. destruct (Z.eqb_spec (A * A mod m) 1) as [E1|E1].
    + rewrite E1, Z.pow_1_l, Z.mul_1_r, Z.mod_mod by lia. exists rb'. auto.
    + unfold q. apply IH; auto. rewrite Nat.add_succ_r in L. exact L.
Qed.
Lemma is_odd_spec b z : denotes b z -> is_odd b = Z.odd z.
Proof.
  intros D. unfold is_odd. pose proof (uval_testbit _ (d_words _ _ D) 0) as T. change (0 / 32)%nat with O in T. change (Z.of_nat (0 mod 32)) with 0 in T. change (Z.of_nat 0) with 0 in T.
  assert (E : Z.testbit (uval (data b)) 0 = Z.odd z). { rewrite (d_value _ _ D), Full_2, Z.mod_pow2_bits_low by lia. apply Z.bit0_odd. }
  rewrite <- E, T, Z.bit0_odd. change 1 with (Z.ones 1). rewrite Z.land_ones by lia. change (2 ^ 1) with 2. rewrite Zmod_odd. destruct (Z.odd (nth 0 (data b) 0)); reflexivity.
Qed.
Lemma big64 : denotes (Big (set (zeros MAX_LEN) 2 1) 3) (BB * BB).
Proof.
  assert (HT : BB * BB < Half) by (pose proof Half_top; pose proof (pw_lt 2 255 ltac:(lia)) as P2; change (pw 2) with (BB * BB) in P2; lia). apply Denotes; cbn [data len].
  - rewrite set_length. apply zeros_len.
  - apply set_words; [apply zeros_words|apply word_mk; lia].
  - unfold in_range. lia.
  - rewrite uval_set by (rewrite zeros_len; change MAX_LEN with 256%nat; lia). rewrite uval_zeros. change (nth 2 (zeros MAX_LEN) 0) with 0. change (pw 2) with (BB * BB). rewrite Z.mod_small by (pose proof Full_Half; lia). lia.
  - lia.
  - intros i Hi. rewrite nth_set by (rewrite zeros_len; change MAX_LEN with 256%nat; lia). destruct (Nat.eqb_spec 2 i); [lia|apply nth_repeat].
  - right. cbn. discriminate.
Qed.
Lemma mod_pow_spec a ex n x e m : denotes a x -> denotes ex e -> denotes n m -> x <> - Half -> 0 <= e -> 2 <= Z.abs m < BB -> Z.gcd x m = 1 -> gives (mod_pow a ex n) (Z.rem (x ^ e) m).
Proof.
  intros Da De Dn Nx E0 HM G. unfold mod_pow. cbv zeta. pose proof Half_top as HT. pose proof (pw_le 3 255 ltac:(lia)) as PP. change (pw 3) with (BB * (BB * (BB * 1))) in PP.
  destruct (abs_part a x Da) as [PA _]. destruct (PA Nx) as (a1 & -> & Da1). cbn [bind]. destruct (abs_part n m Dn) as [PN _]. destruct PN as (n1 & -> & Dn1); [lia|]. cbn [bind]. rewrite (neg_iff a x Da).
  destruct (mod_spec a1 n1 _ _ Da1 Dn1) as (nb & -> & Dnb); try lia. cbn [bind]. rewrite Z.rem_mod_nonneg in Dnb by lia. rewrite (small_len n1 _ Dn1) by lia. change (2 * 1)%nat with 2%nat. change (Nat.leb MAX_LEN 2) with false. cbv iota. change (2 + 1)%nat with 3%nat.
  destruct (div_spec _ n1 _ _ big64 Dn1) as (c & -> & Dc); try lia. cbn [bind]. rewrite Z.quot_div_nonneg in Dc by lia.
  rewrite (bitcount_spec ex e De). destruct (Z.ltb_spec e 0); [lia|].
  assert (RP : rel_prime (Z.abs m) (Z.abs x)). { apply Zgcd_1_rel_prime. rewrite Z.gcd_abs_l, Z.gcd_abs_r, Z.gcd_comm. exact G. }
  assert (RP2 : rel_prime (Z.abs m) (Z.abs x mod Z.abs m)) by (apply rel_prime_sym, rel_prime_mod; [lia|apply rel_prime_sym, RP]).
  set (k := if (if e =? 0 then 0 else Z.log2 e + 1) =? 0 then (32 * len ex)%nat else Z.to_nat (if e =? 0 then 0 else Z.log2 e + 1)).
  assert (K : e < 2 ^ Z.of_nat (0 + k)).
  { unfold k. destruct (Z.eqb_spec e 0) as [->|N]; [cbn [Z.eqb]; apply Z.pow_pos_nonneg; lia|]. pose proof (Z.log2_nonneg e). destruct (Z.eqb_spec (Z.log2 e + 1) 0); [lia|]. cbn [Nat.add]. rewrite Z2Nat.id by lia. apply Z.log2_spec. lia. }
  clearbody k. pose proof (Z.mod_pos_bound (Z.abs x) (Z.abs m) ltac:(lia)) as MB.
  destruct (pow_loop_spec ex e n1 _ c De E0 Dn1 Dc HM k 0 nb ONE _ 1 Dnb denotes_ONE) as (r & -> & Dr); auto; try lia; [apply rel_prime_sym, rel_prime_1|]. cbn [bind].
  change (Z.of_nat 0) with 0 in Dr. rewrite Z.pow_0_r, Z.div_1_r, Z.mul_1_l, <- Zpower_mod in Dr by lia. rewrite (is_odd_spec ex e De).
  pose proof (Z.mod_pos_bound (Z.abs x ^ e) (Z.abs m) ltac:(lia)) as MB2.
  assert (V : Z.rem (x ^ e) m = if (x <? 0) && Z.odd e then - (Z.abs x ^ e mod Z.abs m) else Z.abs x ^ e mod Z.abs m).
  { rewrite <- Z.rem_abs_r by lia. assert (NN : 0 <= Z.abs x ^ e) by (apply Z.pow_nonneg; lia). rewrite <- Z.rem_mod_nonneg by lia. destruct (Z.ltb_spec x 0); cbn [andb]; [|rewrite (Z.abs_eq x) by lia; reflexivity].
    rewrite (Z.abs_neq x) by lia. destruct (Z.odd e) eqn:O.
    - rewrite Z.pow_opp_odd by (apply Z.odd_spec; exact O). rewrite Z.rem_opp_l, Z.opp_involutive by lia. reflexivity.
    - rewrite Z.pow_opp_even by (apply Z.even_spec; rewrite <- Z.negb_odd, O; reflexivity). reflexivity. }
  rewrite V. destruct ((x <? 0) && Z.odd e); [apply negate_spec; [exact Dr|lia]|]. exists r. auto.
Qed.
