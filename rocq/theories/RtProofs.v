From Coq Require Import ZArith Bool List Lia ZifyBool.
From Verif Require Import Mach RtModel.
Open Scope Z_scope.

(** ** Words *)
Lemma lor_disj x y n : 0 <= n -> 0 <= y < 2 ^ n -> Z.lor (x * 2 ^ n) y = x * 2 ^ n + y.
Proof.
  intros Hn Hy. rewrite <- Z.lxor_lor.
  - symmetry. apply Z.add_nocarry_lxor. apply Z.bits_inj'. intros k Hk. rewrite Z.land_spec, Z.bits_0. destruct (Z.lt_ge_cases k n).
    + rewrite Z.mul_pow2_bits_low by assumption. reflexivity.
    + replace y with (y mod 2 ^ n) by (apply Z.mod_small; assumption). rewrite (Z.mod_pow2_bits_high y n k) by lia. apply andb_false_r.
  - apply Z.bits_inj'. intros k Hk. rewrite Z.land_spec, Z.bits_0. destruct (Z.lt_ge_cases k n).
    + rewrite Z.mul_pow2_bits_low by assumption. reflexivity.
    + replace y with (y mod 2 ^ n) by (apply Z.mod_small; assumption). rewrite (Z.mod_pow2_bits_high y n k) by lia. apply andb_false_r.
Qed.
Lemma low_bd a : 0 <= low a < 2 ^ 64. Proof. apply Z.mod_pos_bound. reflexivity. Qed.
Lemma high_bd a : 0 <= high a < 2 ^ 64. Proof. apply Z.mod_pos_bound. reflexivity. Qed.
Lemma u128_bd a : 0 <= u128 a < 2 ^ 128. Proof. apply Z.mod_pos_bound. reflexivity. Qed.
Lemma u128_small a : 0 <= a < 2 ^ 128 -> u128 a = a. Proof. apply Z.mod_small. Qed.
Lemma u64_small a : 0 <= a < 2 ^ 64 -> u64 a = a. Proof. apply Z.mod_small. Qed.
Lemma halves_mod a : a mod 2 ^ 128 = high a * 2 ^ 64 + low a.
Proof.
  unfold high, low, u64. rewrite Z.shiftr_div_pow2 by lia. rewrite (Z.mul_comm _ (2 ^ 64)), Z.add_comm. rewrite <- Z.rem_mul_r by lia. reflexivity.
Qed.
Lemma halves a : 0 <= a < 2 ^ 128 -> a = high a * 2 ^ 64 + low a.
Proof. intros H. rewrite <- halves_mod. symmetry. apply Z.mod_small. exact H. Qed.
Lemma low_all l h : 0 <= l < 2 ^ 64 -> low (all l h) = l.
Proof. intros H. unfold low, all, u64. rewrite Z.add_comm, Z.mod_add by lia. apply Z.mod_small. exact H. Qed.
Lemma high_all l h : 0 <= l < 2 ^ 64 -> 0 <= h < 2 ^ 64 -> high (all l h) = h.
Proof.
  intros Hl Hh. unfold high, all, u64. rewrite Z.shiftr_div_pow2 by lia. rewrite Z.div_add_l by lia. rewrite (Z.div_small l) by exact Hl. rewrite Z.add_0_r. apply Z.mod_small. exact Hh.
Qed.
Lemma all_bd l h : 0 <= l < 2 ^ 64 -> 0 <= h < 2 ^ 64 -> 0 <= all l h < 2 ^ 128.
Proof. unfold all. change (2 ^ 128) with (2 ^ 64 * 2 ^ 64). set (P := 2 ^ 64). nia. Qed.
Lemma all_halves a : 0 <= a < 2 ^ 128 -> all (low a) (high a) = a.
Proof. intros H. unfold all. symmetry. apply halves. exact H. Qed.

(** A shift of one bit, with the bit that comes in. *)
Lemma shl1 x c : 0 <= c < 2 -> Z.lor (u64 (Z.shiftl x 1)) c = 2 * (x mod 2 ^ 63) + c.
Proof.
  intros Hc. unfold u64. rewrite Z.shiftl_mul_pow2 by lia. change (2 ^ 64) with (2 ^ 63 * 2 ^ 1). rewrite Z.mul_mod_distr_r by lia. rewrite lor_disj by lia. lia.
Qed.
Lemma top x : 0 <= x < 2 ^ 64 -> 0 <= Z.shiftr x 63 < 2 /\ x = Z.shiftr x 63 * 2 ^ 63 + x mod 2 ^ 63.
Proof.
  intros H. rewrite Z.shiftr_div_pow2 by lia. change (2 ^ 64) with (2 * 2 ^ 63) in H. set (P := 2 ^ 63) in *. assert (0 < P) by reflexivity. split.
  - split; [apply Z.div_pos; lia|apply Z.div_lt_upper_bound; lia].
  - rewrite Z.mul_comm. apply Z.div_mod. lia.
Qed.
Lemma pair_shl l h c : 0 <= l < 2 ^ 64 -> 0 <= h < 2 ^ 64 -> 0 <= c < 2 ->
  exists t, 0 <= t < 2 /\ h / 2 ^ 63 = t /\ Z.shiftr h 63 = t /\
  all (Z.lor (u64 (Z.shiftl l 1)) c) (Z.lor (u64 (Z.shiftl h 1)) (Z.shiftr l 63)) + t * 2 ^ 128 = 2 * all l h + c /\
  0 <= Z.lor (u64 (Z.shiftl l 1)) c < 2 ^ 64 /\ 0 <= Z.lor (u64 (Z.shiftl h 1)) (Z.shiftr l 63) < 2 ^ 64.
Proof.
  intros Hl Hh Hc. destruct (top l Hl) as [Tl El]. destruct (top h Hh) as [Th Eh]. exists (Z.shiftr h 63). split; [exact Th|]. split; [rewrite Z.shiftr_div_pow2 by lia; reflexivity|]. split; [reflexivity|].
  rewrite !shl1 by assumption. unfold all. pose proof (Z.mod_pos_bound l (2 ^ 63) ltac:(lia)). pose proof (Z.mod_pos_bound h (2 ^ 63) ltac:(lia)).
  set (a := l mod 2 ^ 63) in *. set (b := h mod 2 ^ 63) in *. set (x := Z.shiftr l 63) in *. set (y := Z.shiftr h 63) in *. clearbody a b x y. change (2 ^ 128) with (4 * 2 ^ 63 * 2 ^ 63). change (2 ^ 64) with (2 * 2 ^ 63) in *.
  set (P := 2 ^ 63) in *. assert (0 < P) by reflexivity. clearbody P. subst l h. split; [ring|]. lia.
Qed.

(** ** The loop *)
Lemma sign_small x : - 2 ^ 127 <= x < 2 ^ 127 -> Z.shiftr (i128 x) 127 = if x <? 0 then -1 else 0.
Proof.
  intros H. unfold i128. change (2 ^ 128) with (2 * 2 ^ 127). set (P := 2 ^ 127) in *. assert (HP : 0 < P) by reflexivity. destruct (Z.ltb_spec x 0).
  - replace (x mod (2 * P)) with (x + 2 * P) by (apply Z.mod_unique with (-1); lia). replace (x + 2 * P <? P) with false by lia. rewrite Z.shiftr_div_pow2 by lia. fold P. symmetry. apply Z.div_unique with (x + P); lia.
  - rewrite Z.mod_small by lia. replace (x <? P) with true by lia. rewrite Z.shiftr_div_pow2 by lia. fold P. apply Z.div_small. lia.
Qed.
Lemma land_all d : 0 <= d < 2 ^ 128 -> Z.land d (u128 (-1)) = d.
Proof. intros H. change (u128 (-1)) with (Z.ones 128). rewrite Z.land_ones by lia. apply Z.mod_small. exact H. Qed.

Lemma pow_split j : (j <= 127)%nat -> 2 ^ 128 = 2 ^ Z.of_nat j * 2 ^ (128 - Z.of_nat j).
Proof. intros H. rewrite <- Z.pow_add_r by lia. f_equal. lia. Qed.
Lemma div_loop_ok d n : 0 < d < 2 ^ 128 -> 0 <= n < 2 ^ 128 -> forall j rl rh ql qh c K,
  (j <= 127)%nat -> d < 2 ^ 127 \/ (j = 1%nat /\ 2 ^ 127 <= n) \/ j = 0%nat ->
  0 <= rl < 2 ^ 64 -> 0 <= rh < 2 ^ 64 -> 0 <= ql < 2 ^ 64 -> 0 <= qh < 2 ^ 64 -> 0 <= c < 2 -> 0 <= K < 2 ^ (128 - Z.of_nat j) ->
  n / 2 ^ Z.of_nat j = d * (2 * K + c) + all rl rh -> all rl rh < d ->
  all ql qh = (n mod 2 ^ Z.of_nat j) * 2 ^ (128 - Z.of_nat j) + K ->
  exists q c', div_loop j d rl rh ql qh c = Ok (n mod d, q, c') /\ 0 <= c' < 2 /\ 0 <= q /\ 2 * q + c' = n / d.
Proof.
  intros Hd Hn. induction j as [|j IH]; intros rl rh ql qh c K Hj Hc Hrl Hrh Hql Hqh Hcc HK EN HR EQ.
  - cbn [div_loop]. change (Z.of_nat 0) with 0 in *. rewrite Z.pow_0_r, Z.div_1_r in EN. rewrite Z.pow_0_r, Z.mod_1_r in EQ. pose proof (all_bd rl rh Hrl Hrh). rewrite EQ. exists K, c. split; [|split; [exact Hcc|]; split; [lia|]].
    + do 3 f_equal. apply Z.mod_unique with (2 * K + c); lia.
    + apply Z.div_unique with (all rl rh); lia.
  - cbn [div_loop]. assert (Hj' : (j <= 127)%nat) by lia.
    destruct (pair_shl ql qh c Hql Hqh Hcc) as (tq & Htq & Etq & Etq2 & Eq2 & Bql & Bqh). destruct (pair_shl rl rh (Z.shiftr qh 63) Hrl Hrh) as (tr & Htr & _ & _ & Er2 & Brl & Brh); [rewrite Etq2; exact Htq|].
    set (ql' := Z.lor (u64 (Z.shiftl ql 1)) c) in *. set (qh' := Z.lor (u64 (Z.shiftl qh 1)) (Z.shiftr ql 63)) in *.
    set (rl' := Z.lor (u64 (Z.shiftl rl 1)) (Z.shiftr qh 63)) in *. set (rh' := Z.lor (u64 (Z.shiftl rh 1)) (Z.shiftr rl 63)) in *. rewrite Etq2 in Er2.
    clearbody ql' qh' rl' rh'.
    set (R := all rl rh) in *. set (Q := all ql qh) in *. pose proof (all_bd _ _ Hrl Hrh) as BR. fold R in BR. pose proof (all_bd _ _ Hql Hqh) as BQ. fold Q in BQ.
    assert (EJ : Z.of_nat (S j) = Z.of_nat j + 1) by lia.
    set (A := 2 ^ Z.of_nat j) in *. assert (HA : 0 < A) by (apply Z.pow_pos_nonneg; lia).
    assert (EA : 2 ^ Z.of_nat (S j) = 2 * A) by (rewrite EJ, Z.pow_add_r by lia; change (2 ^ 1) with 2; unfold A; ring).
    set (Bp := 2 ^ (128 - Z.of_nat (S j))) in *. assert (HB : 0 < Bp) by (apply Z.pow_pos_nonneg; lia).
    assert (EB : 2 ^ (128 - Z.of_nat j) = 2 * Bp) by (replace (128 - Z.of_nat j) with (1 + (128 - Z.of_nat (S j))) by lia; rewrite Z.pow_add_r by lia; reflexivity).
    assert (EAB : 2 ^ 128 = 2 * A * Bp) by (rewrite (pow_split (S j)) by lia; rewrite EA; reflexivity).
    rewrite EA in EN, EQ.
    (* the bit that leaves n *)
    set (b := (n / A) mod 2). assert (Hb : 0 <= b < 2) by (apply Z.mod_pos_bound; lia).
    assert (EnA : n / A = 2 * (n / (2 * A)) + b). { unfold b. rewrite (Z.mul_comm 2 A), <- Z.div_div by lia. apply Z.div_mod. lia. }
    assert (EmA : n mod (2 * A) = A * b + n mod A). { unfold b. rewrite (Z.mul_comm 2 A), Z.rem_mul_r by lia. apply Z.add_comm. }
    pose proof (Z.mod_pos_bound n A HA) as BmA.
    assert (Eb : tq = b).
    { assert (H1 : Q + (2 * A * Bp) * 0 = Q) by ring. assert (Hqh2 : qh / 2 ^ 63 = Q / (A * Bp)).
      { assert (EAB2 : A * Bp = 2 ^ 64 * 2 ^ 63). { assert (E : 2 * (A * Bp) = 2 * (2 ^ 64 * 2 ^ 63)) by (rewrite Z.mul_assoc, <- EAB; reflexivity). lia. }
        rewrite EAB2, <- Z.div_div by lia. f_equal. unfold Q, all. rewrite Z.div_add_l by lia. rewrite (Z.div_small ql) by exact Hql. lia. }
      rewrite <- Etq, Hqh2, EQ, EmA. symmetry. apply Z.div_unique with (n mod A * Bp + K); [left; split; [nia|]|ring].
      assert (n mod A * Bp + Bp <= A * Bp) by nia. lia. }
    rewrite Eb in Er2, Eq2. clear Eb Etq Etq2 Htq tq.
    assert (BN : n / A <= n) by (apply Z.div_le_upper_bound; nia).
    set (R' := all rl' rh') in *. pose proof (all_bd _ _ Brl Brh) as BR'. fold R' in BR'.
    assert (Etr : tr = 0).
    { assert (2 * R + b < 2 ^ 128); [|lia]. destruct Hc as [Hc|[[Hc1 Hc2]|Hc]]; [change (2 ^ 128) with (2 * 2 ^ 127); lia| |lia].
      assert (2 * R + b <= n / A); [|lia]. rewrite EnA, EN. assert (0 <= d * (2 * K + c)) by nia. lia. }
    subst tr. rewrite Z.mul_0_l, Z.add_0_r in Er2.
    assert (Cmp : - 2 ^ 127 <= d - R' - 1 < 2 ^ 127).
    { rewrite Er2. destruct Hc as [Hc|[[Hc1 Hc2]|Hc]]; [lia| |lia]. assert (j = 0%nat) by lia. subst j. unfold A in *. change (2 ^ Z.of_nat 0) with 1 in *. rewrite Z.div_1_r in *.
      assert (n < 2 * d -> n = 2 * R + b). { intros X. assert (n / (2 * 1) < d) by (apply Z.div_lt_upper_bound; lia). assert (2 * K + c = 0) by nia. rewrite EnA, EN. nia. }
      change (2 ^ 128) with (2 * 2 ^ 127) in *. lia. }
    rewrite (sign_small _ Cmp). pose proof (halves_mod Q) as _.
    assert (E2 : n / A = d * (2 * (2 * K + c) + 0) + R') by (clearbody b R R'; rewrite EnA, EN, Er2; ring).
    assert (Q2 : all ql' qh' = n mod A * (2 * Bp) + (2 * K + c)). { rewrite EAB in Eq2. rewrite EQ, EmA in Eq2. nia. }
    destruct (Z.ltb_spec (d - R' - 1) 0) as [HS|HS].
    + change (Z.land (-1) 1) with 1. rewrite land_all by lia. rewrite u128_small by lia. set (r2 := R' - d) in *.
      destruct (IH (low r2) (high r2) ql' qh' 1 (2 * K + c)) as (q & c' & E & Hc' & Hq & Eqc); try assumption; try apply low_bd; try apply high_bd; try lia.
      * rewrite all_halves by lia. rewrite E2. unfold r2. ring.
      * rewrite all_halves by lia. unfold r2. lia.
      * exists q, c'. auto.
    + change (Z.land 0 1) with 0. change (u128 0) with 0. rewrite Z.land_0_r, Z.sub_0_r. rewrite u128_small by lia.
      destruct (IH (low R') (high R') ql' qh' 0 (2 * K + c)) as (q & c' & E & Hc' & Hq & Eqc); try assumption; try apply low_bd; try apply high_bd; try lia.
      * rewrite all_halves by lia. exact E2.
      * rewrite all_halves by lia. lia.
      * exists q, c'. auto.
Qed.
Lemma div_tail_ok rem d n sr rl rh ql qh : 0 < d < 2 ^ 128 -> 0 <= n < 2 ^ 128 -> 1 <= sr <= 127 -> d < 2 ^ 127 \/ (sr = 1 /\ 2 ^ 127 <= n) ->
  0 <= rl < 2 ^ 64 -> 0 <= rh < 2 ^ 64 -> 0 <= ql < 2 ^ 64 -> 0 <= qh < 2 ^ 64 -> all rl rh = n / 2 ^ sr -> n / 2 ^ sr < d -> all ql qh = (n mod 2 ^ sr) * 2 ^ (128 - sr) ->
  div_tail rem d sr rl rh ql qh = Ok (if rem then n mod d else n / d).
Proof.
  intros Hd Hn Hs Hc Hrl Hrh Hql Hqh ER HR EQ. unfold div_tail.
  assert (ES : Z.of_nat (Z.to_nat sr) = sr) by lia.
  destruct (div_loop_ok d n Hd Hn (Z.to_nat sr) rl rh ql qh 0 0) as (q & c' & E & Hc' & Hq & Eqc); rewrite ?ES; try assumption; try lia.
  - rewrite E. cbn [bind]. destruct rem; [reflexivity|]. f_equal. assert (n / d <= n) by (apply Z.div_le_upper_bound; nia).
    rewrite Z.shiftl_mul_pow2 by lia. change (2 ^ 1) with 2. rewrite u128_small by lia. change (q * 2) with (q * 2 ^ 1). rewrite lor_disj by lia. change (2 ^ 1) with 2. lia.
Qed.
