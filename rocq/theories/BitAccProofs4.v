From Coq Require Import ZArith List Bool Lia ZifyBool.
From Verif Require Import BitAccModel BitAccSpec BitAccProofs BitAccProofs2 BitAccProofs3.
Import ListNotations.
Open Scope Z_scope.

Lemma in_array_length m m' f : length m' = length m -> in_array m f -> in_array m' f.
Proof. intros L H. unfold in_array. rewrite L. exact H. Qed.
Lemma div8 p i : p / 8 = i <-> 8 * i <= p < 8 * i + 8.
Proof. pose proof (Z.div_mod p 8 ltac:(lia)). pose proof (Z.mod_pos_bound p 8 ltac:(lia)). lia. Qed.
(** The bytes after the first partial one, when the last byte is whole. *)
Lemma write_rest f : 8 <= f_width f -> 0 <= f_start f -> f_end f mod 8 = 7 -> forall n m i x, bytes m -> 0 <= i ->
  (f_start f / 8 < i \/ f_start f mod 8 = 0) -> i + Z.of_nat n <= Z.of_nat (length m) -> 0 <= x < 2 ^ f_width f ->
  exists m', write_bytes 1 m f i n x = Some m' /\ length m' = length m /\ bytes m' /\
    forall p, 0 <= p -> Z.testbit (of_bytes m') p = if (8 * i <=? p) && (p <? 8 * (i + Z.of_nat n)) then Z.testbit x (p - 8 * i) else Z.testbit (of_bytes m) p.
Proof.
  intros W S E7. induction n as [|n IH]; intros m i x B Hi HS Hn X; cbn [write_bytes].
  - exists m. split; [reflexivity|]. split; [reflexivity|]. split; [auto|]. intros p Hp. replace (_ && _) with false by lia. reflexivity.
  - replace ((i =? f_start f / 8) && negb (f_start f mod 8 =? 0)) with false by lia. rewrite E7. cbn [Z.eqb Pos.eqb negb]. rewrite andb_false_r, Z.mul_1_l.
    destruct (put_ok m i (zext_trunc 8 x) B ltac:(apply mod_range; lia) ltac:(lia)) as (m1 & P1 & P2 & P3 & P4). rewrite P1. cbn [bind].
    destruct (IH m1 (i + 1) (lshr (f_width f) x 8)) as (m' & A1 & A2 & A3 & A4); auto; [lia|lia|lia|apply lshr_range; lia|].
    exists m'. split; [exact A1|]. split; [lia|]. split; [auto|]. intros p Hp. rewrite A4, P4 by auto.
    destruct (p / 8 =? i) eqn:D.
    + assert (Q : p / 8 = i) by lia. apply div8 in Q. replace ((8 * (i + 1) <=? p) && _) with false by lia. replace ((8 * i <=? p) && _) with true by lia.
      unfold zext_trunc. pose proof (Z.div_mod p 8 ltac:(lia)). rewrite tb_mod by lia. replace (p mod 8 <? 8) with true by lia. cbn [andb]. f_equal. lia.
    + assert (Q : ~ (8 * i <= p < 8 * i + 8)) by (rewrite <- div8; lia).
      destruct ((8 * (i + 1) <=? p) && (p <? 8 * (i + 1 + Z.of_nat n))) eqn:F.
      * replace ((8 * i <=? p) && _) with true by lia. rewrite tb_lshr by lia. f_equal. lia.
      * replace ((8 * i <=? p) && _) with false by lia. reflexivity.
Qed.
Lemma write_all m f x : bytes m -> in_array m f -> writable f -> 0 <= x < 2 ^ f_width f ->
  exists m', write_bytes 1 m f (f_start f / 8) (Z.to_nat (f_end f / 8 - f_start f / 8 + 1)) x = Some m' /\ length m' = length m /\ bytes m' /\
    replaced (of_bytes m) f x (of_bytes m').
Proof.
  intros B HI HW X. pose proof (starts m f HI) as (S1 & S2 & S3). pose proof HI as ((F1 & F2 & F3 & F4) & W1 & W2).
  pose proof (Z.div_mod (f_end f) 8 ltac:(lia)) as DE. pose proof (Z.mod_pos_bound (f_end f) 8 ltac:(lia)) as ME.
  assert (LE : f_start f / 8 <= f_end f / 8) by (apply Z.div_le_mono; lia).
  destruct (Z.eq_dec (f_start f mod 8) 0) as [Z0|NZ].
  - destruct HW as [HW|HW]; [|lia].
    destruct (write_rest f ltac:(lia) ltac:(lia) HW (Z.to_nat (f_end f / 8 - f_start f / 8 + 1)) m (f_start f / 8) x) as (m' & A1 & A2 & A3 & A4); auto; [lia|].
    exists m'. split; [exact A1|]. split; [auto|]. split; [auto|]. split; [apply of_bytes_nonneg; auto|]. intros p Hp. rewrite A4 by auto.
    replace ((8 * (f_start f / 8) <=? p) && (p <? 8 * (f_start f / 8 + Z.of_nat (Z.to_nat (f_end f / 8 - f_start f / 8 + 1))))) with ((f_start f <=? p) && (p <=? f_end f)) by lia.
    destruct (_ && _); [f_equal; lia|reflexivity].
  - replace (Z.to_nat (f_end f / 8 - f_start f / 8 + 1)) with (S (Z.to_nat (f_end f / 8 - f_start f / 8))) by lia. cbn [write_bytes].
    rewrite Z.eqb_refl. replace (f_start f mod 8 =? 0) with false by lia. cbn [negb andb]. rewrite Z.mul_1_l, get_nth by lia. cbn [bind].
    set (b := nth (Z.to_nat (f_start f / 8)) m 0). pose proof (nth_byte m (Z.to_nat (f_start f / 8)) B) as Rb. fold b in Rb.
    set (sm := f_start f mod 8) in *. set (em := f_end f mod 8) in *. set (last := (f_start f / 8 =? f_end f / 8) && negb (em =? 7)).
    set (res0 := zext_trunc 8 (shl (f_width f) x sm)). set (res := if last then _ else res0). set (mask := if last then _ else low_bitmask 8 sm).
    assert (R0 : 0 <= res0 < 2 ^ 8) by (apply mod_range; lia). pose proof (low_mask_range 8 sm ltac:(lia)) as RL. pose proof (low_mask_range 8 (em + 1) ltac:(lia)) as RL2.
    pose proof (high_mask_range 8 (7 - f_end f) ltac:(lia)) as RH.
    assert (RR : 0 <= res < 2 ^ 8) by (unfold res; destruct last; [apply land_range; lia|auto]).
    assert (RM : 0 <= mask < 2 ^ 8) by (unfold mask; destruct last; [apply lor_range; lia|auto]).
    assert (T0 : forall j, 0 <= j < 8 -> Z.testbit res0 j = Z.testbit x (j - sm)).
    { intros j Hj. unfold res0, zext_trunc. rewrite tb_mod, tb_shl by lia. replace (j <? 8) with true by lia. replace (j <? f_width f) with true by lia. reflexivity. }
    assert (TB : forall j, 0 <= j < 8 -> Z.testbit (Z.lor (Z.land b mask) res) j =
                 if (sm <=? j) && (8 * (f_start f / 8) + j <=? f_end f) then Z.testbit x (j - sm) else Z.testbit b j).
    { intros j Hj. rewrite Z.lor_spec, Z.land_spec. unfold mask, res. destruct last eqn:L; unfold last in L.
      - destruct HW as [HW|HW]; [lia|]. assert (f_start f / 8 = 0) by lia. assert (f_end f = em) by lia.
        rewrite Z.land_spec, Z.lor_spec, !tb_low_mask, tb_high_mask, T0 by lia. replace (j <? 8) with true by lia. cbn [andb].
        destruct ((sm <=? j) && (8 * (f_start f / 8) + j <=? f_end f)) eqn:Q.
        + replace (j <? em + 1) with true by lia. replace ((j <? sm) || (8 - (7 - f_end f) <=? j)) with false by lia. rewrite andb_true_r, andb_false_r. reflexivity.
        + replace ((j <? sm) || (8 - (7 - f_end f) <=? j)) with true by lia. rewrite andb_true_r.
          destruct (j <? em + 1) eqn:Q2; [|rewrite andb_false_r, orb_false_r; reflexivity]. rewrite (Z.testbit_neg_r x) by lia. cbn [andb]. rewrite orb_false_r. reflexivity.
      - rewrite tb_low_mask, T0 by lia. destruct ((sm <=? j) && (8 * (f_start f / 8) + j <=? f_end f)) eqn:Q.
        + replace (j <? sm) with false by lia. rewrite andb_false_r. reflexivity.
        + replace (j <? sm) with true by lia. rewrite andb_true_r, (Z.testbit_neg_r x) by lia. apply orb_false_r. }
    assert (RV : 0 <= Z.lor (Z.land b mask) res < 2 ^ 8) by (apply lor_range; [lia|apply land_range; lia|auto]).
    destruct (put_ok m (f_start f / 8) _ B RV ltac:(lia)) as (m1 & P1 & P2 & P3 & P4). rewrite P1. cbn [bind].
    assert (PB : forall p, 0 <= p -> p / 8 = f_start f / 8 -> Z.testbit (of_bytes m1) p =
                 if (f_start f <=? p) && (p <=? f_end f) then Z.testbit x (p - f_start f) else Z.testbit (of_bytes m) p).
    { intros p Hp Hd. pose proof (Z.div_mod p 8 ltac:(lia)) as Dp. pose proof (Z.mod_pos_bound p 8 ltac:(lia)). rewrite P4 by auto. replace (p / 8 =? f_start f / 8) with true by lia. rewrite TB by lia.
      replace ((sm <=? p mod 8) && (8 * (f_start f / 8) + p mod 8 <=? f_end f)) with ((f_start f <=? p) && (p <=? f_end f)) by lia.
      destruct ((f_start f <=? p) && (p <=? f_end f)); [f_equal; lia|]. unfold b. rewrite tb_byte by (auto; lia). f_equal. lia. }
    destruct (Z.eq_dec (f_start f / 8) (f_end f / 8)) as [EQ|NE].
    + replace (Z.to_nat (f_end f / 8 - f_start f / 8)) with O by lia. cbn [write_bytes]. exists m1. split; [reflexivity|]. split; [auto|]. split; [auto|].
      split; [apply of_bytes_nonneg; auto|]. intros p Hp. destruct (Z.eq_dec (p / 8) (f_start f / 8)) as [D|D]; [apply PB; auto|].
      rewrite P4 by auto. replace (p / 8 =? f_start f / 8) with false by lia. pose proof (Z.div_mod p 8 ltac:(lia)). pose proof (Z.mod_pos_bound p 8 ltac:(lia)).
      replace ((f_start f <=? p) && (p <=? f_end f)) with false by lia. reflexivity.
    + assert (E7 : em = 7). { destruct HW as [HW|HW]; [auto|]. pose proof (Z.div_small (f_end f) 8 ltac:(lia)). lia. }
      destruct (write_rest f ltac:(lia) ltac:(lia) E7 (Z.to_nat (f_end f / 8 - f_start f / 8)) m1 (f_start f / 8 + 1) (lshr (f_width f) x (8 - sm))) as (m' & A1 & A2 & A3 & A4); auto; [lia|lia|lia|apply lshr_range; lia|].
      exists m'. split; [exact A1|]. split; [lia|]. split; [auto|]. split; [apply of_bytes_nonneg; auto|]. intros p Hp. rewrite A4 by auto.
      pose proof (Z.div_mod p 8 ltac:(lia)). pose proof (Z.mod_pos_bound p 8 ltac:(lia)).
      destruct ((8 * (f_start f / 8 + 1) <=? p) && _) eqn:Q.
      * replace ((f_start f <=? p) && (p <=? f_end f)) with true by lia. rewrite tb_lshr by lia. f_equal. lia.
      * destruct (Z.eq_dec (p / 8) (f_start f / 8)) as [D|D]; [apply PB; auto|]. rewrite P4 by auto. replace (p / 8 =? f_start f / 8) with false by lia.
        replace ((f_start f <=? p) && (p <=? f_end f)) with false by lia. reflexivity.
Qed.
(** One bit. *)
Lemma write_bit m f v : bytes m -> in_array m f -> f_bool f = true -> 0 <= v < 2 ->
  exists m', put m (f_start f / 8) (Z.lor (Z.land (nth (Z.to_nat (f_start f / 8)) m 0) (lnot 8 (shl 8 1 (f_start f mod 8)))) (shl 8 v (f_start f mod 8))) = Some m' /\
    length m' = length m /\ bytes m' /\ replaced (of_bytes m) f v (of_bytes m').
Proof.
  intros B HI HB V. pose proof (starts m f HI) as (S1 & S2 & S3). pose proof HI as ((F1 & F2 & F3 & F4) & W1 & W2). destruct (F4 HB) as [F5 _].
  pose proof (nth_byte m (Z.to_nat (f_start f / 8)) B) as Rb. set (b := nth _ m 0) in *. set (sm := f_start f mod 8) in *.
  pose proof (shl_range 8 1 sm ltac:(lia) ltac:(lia)) as R1. pose proof (shl_range 8 v sm ltac:(lia) ltac:(lia)) as R2. pose proof (lnot_range 8 _ ltac:(lia) R1) as R3.
  destruct (put_ok m (f_start f / 8) (Z.lor (Z.land b (lnot 8 (shl 8 1 sm))) (shl 8 v sm)) B) as (m' & P1 & P2 & P3 & P4); [apply lor_range; [lia|apply land_range; lia|auto]|lia|].
  exists m'. split; [exact P1|]. split; [auto|]. split; [auto|]. split; [apply of_bytes_nonneg; auto|]. intros p Hp. rewrite P4 by auto.
  pose proof (Z.div_mod p 8 ltac:(lia)) as Dp. pose proof (Z.mod_pos_bound p 8 ltac:(lia)) as Mp. destruct (p / 8 =? f_start f / 8) eqn:D.
  - rewrite Z.lor_spec, Z.land_spec, tb_lnot, !tb_shl by lia. replace (p mod 8 <? 8) with true by lia. cbn [andb xorb].
    unfold b at 1. rewrite tb_byte by (auto; lia). replace (8 * (f_start f / 8) + p mod 8) with p by lia.
    destruct ((f_start f <=? p) && (p <=? f_end f)) eqn:E.
    + replace (p mod 8 - sm) with 0 by lia. replace (p - f_start f) with 0 by lia. rewrite andb_false_r. reflexivity.
    + assert (N : Z.testbit 1 (p mod 8 - sm) = false) by (destruct (Z.lt_ge_cases (p mod 8 - sm) 0); [apply Z.testbit_neg_r; lia|apply (tb_high 1); lia]).
      assert (N2 : Z.testbit v (p mod 8 - sm) = false) by (destruct (Z.lt_ge_cases (p mod 8 - sm) 0); [apply Z.testbit_neg_r; lia|apply (tb_high 1); lia]).
      rewrite N, N2. cbn [xorb negb]. rewrite andb_true_r, orb_false_r. reflexivity.
  - replace ((f_start f <=? p) && (p <=? f_end f)) with false by lia. reflexivity.
Qed.
Lemma update_array_ok swap m f v : bytes m -> in_array m f -> (swap = true -> 8 < len f -> is_power_of_two (len f) = true) ->
  f_bool f = true \/ writable f -> value_ok f v ->
  exists m', update_array 1 swap m f v = Some m' /\ length m' = length m /\ bytes m' /\ replaced (of_bytes m) f (written swap f v) (of_bytes m').
Proof.
  intros B HI P HW [V1 V2]. pose proof (starts m f HI) as (S1 & S2 & S3). pose proof HI as ((F1 & F2 & F3 & F4) & W1 & W2).
  unfold update_array, written. destruct (f_bool f) eqn:FB.
  - rewrite Z.mul_1_l, get_nth by (pose proof (F4 eq_refl); lia). cbn [bind]. apply write_bit; auto. specialize (V2 eq_refl). lia.
  - destruct HW as [HW|HW]; [discriminate|]. destruct (swap_word swap (f_width f) f v) as (y & Y1 & Y2 & Y3); auto; [lia|].
    cbv zeta. unfold len in Y1 at 1. rewrite Y1. cbn [bind]. unfold len in F3. replace (negb _) with false by lia.
    destruct (write_all m f y B HI HW Y2) as (m' & A1 & A2 & A3 & A4). exists m'. split; [exact A1|]. split; [auto|]. split; [auto|].
    rewrite <- Y3. apply replaced_mod; auto.
Qed.

(** Constants. *)
Lemma const_bytes_ok f x : 8 <= f_width f -> f_width f mod 8 = 0 -> 0 <= f_start f <= f_end f -> len f <= f_width f -> 0 <= x < 2 ^ len f -> forall n m j, bytes m -> f_start f / 8 <= j ->
  j + Z.of_nat n = f_end f / 8 + 1 -> j + Z.of_nat n <= Z.of_nat (length m) ->
  exists m', const_bytes m f j n x = Some m' /\ length m' = length m /\ bytes m' /\
    forall p, 0 <= p -> Z.testbit (of_bytes m') p = ((8 * j <=? p) && (f_start f <=? p) && (p <=? f_end f) && Z.testbit x (p - f_start f)) || Z.testbit (of_bytes m) p.
Proof.
  intros W W8 F1 F3 X. pose proof (Z.div_mod (f_start f) 8 ltac:(lia)) as DS. pose proof (Z.mod_pos_bound (f_start f) 8 ltac:(lia)) as MS.
  pose proof (Z.div_mod (f_end f) 8 ltac:(lia)) as DE. pose proof (Z.mod_pos_bound (f_end f) 8 ltac:(lia)) as ME. pose proof (Z.div_pos (f_start f) 8 ltac:(lia) ltac:(lia)) as PS.
  assert (XW : 0 <= x < 2 ^ f_width f) by (unfold len in *; pose proof (Z.pow_le_mono_r 2 (len f) (f_width f) ltac:(lia) ltac:(unfold len; lia)); unfold len in *; lia).
  induction n as [|n IH]; intros m j B Hj HE Hn; cbn [const_bytes].
  - exists m. split; [reflexivity|]. split; [reflexivity|]. split; [auto|]. intros p Hp. replace ((8 * j <=? p) && (f_start f <=? p) && (p <=? f_end f)) with false by lia. reflexivity.
  - set (t1 := if j =? f_start f / 8 then _ else _).
    assert (T1 : 0 <= t1 < 2 ^ f_width f /\ forall b, 0 <= b < 8 -> Z.testbit t1 b = Z.testbit x (8 * j + b - f_start f)).
    { unfold t1. destruct (j =? f_start f / 8) eqn:E.
      - split; [apply shl_range; lia|]. intros b Hb. rewrite tb_shl by lia. replace (b <? f_width f) with true by lia. cbn [andb]. f_equal. lia.
      - split; [apply lshr_range; lia|]. intros b Hb. rewrite tb_lshr by lia. f_equal. lia. }
    destruct T1 as [R1 T1]. set (t2 := if j =? f_end f / 8 then _ else _).
    assert (T2 : 0 <= t2 < 2 ^ f_width f /\ forall b, 0 <= b < 8 -> Z.testbit t2 b = (8 * j + b <=? f_end f) && Z.testbit x (8 * j + b - f_start f)).
    { unfold t2. destruct (j =? f_end f / 8) eqn:E.
      - split.
        + unfold mask_low_bits. destruct (_ <? 1); [lia|]. destruct (f_width f <=? _) eqn:G; [auto|]. apply land_range; [lia|apply lshr_range; [apply ones_range; lia|lia]|lia].
        + intros b Hb. rewrite tb_mask, T1 by lia. f_equal. lia.
      - split; [auto|]. intros b Hb. rewrite T1 by lia. replace (8 * j + b <=? f_end f) with true by lia. reflexivity. }
    destruct T2 as [R2 T2]. set (t3 := if 8 <? f_width f then _ else _).
    assert (T3 : 0 <= t3 < 2 ^ 8 /\ forall b, 0 <= b < 8 -> Z.testbit t3 b = (8 * j + b <=? f_end f) && Z.testbit x (8 * j + b - f_start f)).
    { unfold t3. destruct (8 <? f_width f) eqn:E; [split; [apply mod_range; lia|]; intros b Hb; rewrite tb_mod, T2 by lia; replace (b <? 8) with true by lia; reflexivity|].
      replace (f_width f) with 8 in R2 by lia. auto. }
    destruct T3 as [R3 T3]. rewrite get_nth by lia. cbn [bind]. pose proof (nth_byte m (Z.to_nat j) B) as Rb. set (b := nth (Z.to_nat j) m 0) in *.
    destruct (put_ok m j (Z.lor t3 b) B) as (m1 & P1 & P2 & P3 & P4); [apply lor_range; lia|lia|]. rewrite P1. cbn [bind].
    destruct (IH m1 (j + 1)) as (m' & A1 & A2 & A3 & A4); auto; [lia|lia|lia|]. exists m'. split; [exact A1|]. split; [lia|]. split; [auto|].
    intros p Hp. rewrite A4, P4 by auto. pose proof (Z.div_mod p 8 ltac:(lia)) as Dp. pose proof (Z.mod_pos_bound p 8 ltac:(lia)) as Mp. destruct (p / 8 =? j) eqn:D.
    + rewrite Z.lor_spec, T3 by lia. unfold b. rewrite tb_byte by (auto; lia). replace (8 * j + p mod 8) with p by lia. replace (8 * (j + 1) <=? p) with false by lia. replace (8 * j <=? p) with true by lia. cbn [andb orb].
      destruct (f_start f <=? p) eqn:G; cbn [andb]; [reflexivity|]. rewrite (Z.testbit_neg_r x) by lia. rewrite andb_false_r. reflexivity.
    + replace (8 * (j + 1) <=? p) with (8 * j <=? p) by lia. reflexivity.
Qed.
Lemma const_step_ok swap m f v : bytes m -> in_array m f -> (swap = true -> 8 < len f -> is_power_of_two (len f) = true) -> value_ok f v ->
  exists m', const_array_step swap m f v = Some m' /\ length m' = length m /\ bytes m' /\
    forall p, 0 <= p -> Z.testbit (of_bytes m') p = ((f_start f <=? p) && (p <=? f_end f) && Z.testbit (written swap f v) (p - f_start f)) || Z.testbit (of_bytes m) p.
Proof.
  intros B HI P [V1 V2]. pose proof (starts m f HI) as (S1 & S2 & S3). pose proof HI as ((F1 & F2 & F3 & F4) & W1 & W2).
  pose proof (Z.div_mod (f_end f) 8 ltac:(lia)) as DE. pose proof (Z.mod_pos_bound (f_end f) 8 ltac:(lia)) as ME.
  unfold const_array_step, written. destruct (f_bool f) eqn:FB.
  - destruct (F4 eq_refl) as [F5 _]. specialize (V2 eq_refl). destruct (v =? 0) eqn:E.
    + exists m. split; [reflexivity|]. split; [reflexivity|]. split; [auto|]. intros p Hp. replace v with 0 by lia. rewrite Z.bits_0, andb_false_r. reflexivity.
    + assert (v = 1) by lia. subst v. rewrite get_nth by lia. cbn [bind]. pose proof (nth_byte m (Z.to_nat (f_start f / 8)) B) as Rb. set (b := nth _ m 0) in *.
      pose proof (shl_range 8 1 (f_start f mod 8) ltac:(lia) ltac:(lia)) as R1.
      destruct (put_ok m (f_start f / 8) (Z.lor b (shl 8 1 (f_start f mod 8))) B) as (m' & P1 & P2 & P3 & P4); [apply lor_range; lia|lia|].
      exists m'. split; [exact P1|]. split; [auto|]. split; [auto|]. intros p Hp. rewrite P4 by auto.
      pose proof (Z.div_mod p 8 ltac:(lia)) as Dp. pose proof (Z.mod_pos_bound p 8 ltac:(lia)) as Mp. destruct (p / 8 =? f_start f / 8) eqn:D.
      * rewrite Z.lor_spec, tb_shl by lia. unfold b. rewrite tb_byte by (auto; lia). replace (8 * (f_start f / 8) + p mod 8) with p by lia.
        replace (p mod 8 <? 8) with true by lia. cbn [andb]. rewrite orb_comm. f_equal. replace (p mod 8 - f_start f mod 8) with (p - f_start f) by lia.
        destruct ((f_start f <=? p) && (p <=? f_end f)) eqn:Q; [reflexivity|]. cbn [andb].
        destruct (Z.lt_ge_cases (p - f_start f) 0); [apply Z.testbit_neg_r; lia|apply (tb_high 1); lia].
      * replace ((f_start f <=? p) && (p <=? f_end f)) with false by lia. reflexivity.
  - cbv zeta. unfold len in F3. replace (negb _) with false by lia. fold (len f) in *.
    assert (MK : mask_low_bits (f_width f) v (len f) = v mod 2 ^ len f).
    { apply Z.bits_inj'. intros i Hi. rewrite tb_mask, tb_mod by (unfold len; lia). reflexivity. }
    rewrite MK. set (u := v mod 2 ^ len f). assert (U : 0 <= u < 2 ^ len f) by (apply mod_range; unfold len; lia).
    assert (UW : 0 <= u < 2 ^ f_width f) by (pose proof (Z.pow_le_mono_r 2 (len f) (f_width f) ltac:(lia) ltac:(lia)); lia).
    assert (Y : (if swap && (8 <? len f) then bswap_non_integral (f_width f) u (len f) else Some u) = Some (ordered swap f u)).
    { unfold ordered. destruct (swap && (8 <? len f)) eqn:E; [|reflexivity]. apply andb_true_iff in E. destruct E as [-> E].
      unfold bswap_non_integral. replace (len f <=? 8) with false by lia. rewrite P by (auto; lia). cbn [negb].
      rewrite bswap_non_integral_ok; auto; try lia. apply power8; [lia|apply P; auto; lia]. }
    rewrite Y. cbn [bind]. assert (O : 0 <= ordered swap f u < 2 ^ len f).
    { apply ordered_range; auto. intros Hs Hl. apply power8; [lia|apply P; auto]. }
    destruct (const_bytes_ok f (ordered swap f u) ltac:(lia) W2 F1 F3 O (Z.to_nat (f_end f / 8 - f_start f / 8 + 1)) m (f_start f / 8) B ltac:(lia) ltac:(lia) ltac:(lia)) as (m' & A1 & A2 & A3 & A4).
    exists m'. split; [exact A1|]. split; [auto|]. split; [auto|]. intros p Hp. rewrite A4 by auto.
    destruct (f_start f <=? p) eqn:G; [|rewrite andb_false_r; reflexivity]. replace (8 * (f_start f / 8) <=? p) with true by lia. reflexivity.
Qed.
Definition or_written (swap : bool) (inits : list (Field * Z)) (i : Z) : bool := or_fields (map (fun p => (fst p, written swap (fst p) (snd p))) inits) i.
Lemma const_array_ok swap n : forall inits m, length m = n -> bytes m -> Forall (good_init swap n) inits ->
  exists m', const_array_go swap m inits = Some m' /\ length m' = n /\ bytes m' /\
    forall p, 0 <= p -> Z.testbit (of_bytes m') p = or_written swap inits p || Z.testbit (of_bytes m) p.
Proof.
  induction inits as [|[f v] inits IH]; intros m L B HF; cbn [const_array_go]; [exists m; auto|]. inversion HF as [|? ? (G1 & G2 & G3) HF']; subst. cbn [fst snd] in *.
  assert (HI : in_array m f) by (eapply in_array_length; [|exact G1]; rewrite repeat_length; reflexivity).
  destruct (const_step_ok swap m f v B HI G2 G3) as (m1 & A1 & A2 & A3 & A4). rewrite A1. cbn [bind].
  destruct (IH m1 A2 A3) as (m' & C1 & C2 & C3 & C4); [rewrite A2 || idtac; auto|]. exists m'. split; [exact C1|]. split; [lia|]. split; [auto|].
  intros p Hp. rewrite C4, A4 by auto. unfold or_written. cbn [map or_fields existsb fst snd]. rewrite !orb_assoc. f_equal. apply orb_comm.
Qed.
Lemma const_array_fields swap n inits : Forall (good_init swap n) inits -> ForallOrdPairs (fun p q => apart (fst p) (fst q)) inits ->
  exists m, const_array swap n inits = Some m /\ length m = n /\ bytes m /\ forall f v, In (f, v) inits -> field (of_bytes m) f = written swap f v mod 2 ^ len f.
Proof.
  intros HF HA. assert (BZ : bytes (repeat 0 n)) by (apply Forall_forall; intros x Hx; apply repeat_spec in Hx; subst; lia).
  assert (OZ : of_bytes (repeat 0 n) = 0) by (clear; induction n; cbn [repeat of_bytes]; lia).
  destruct (const_array_ok swap n inits (repeat 0 n) (repeat_length _ _) BZ HF) as (m & A1 & A2 & A3 & A4).
  exists m. split; [exact A1|]. split; [auto|]. split; [auto|]. intros f v Hf. rewrite Forall_forall in HF. destruct (HF _ Hf) as (((F1 & F2 & F3 & _) & _) & _ & _). cbn [fst] in *.
  apply Z.bits_inj'. intros i Hi. rewrite tb_field, tb_mod by (unfold len; lia). destruct (i <? len f) eqn:E; [|reflexivity]. cbn [andb]. unfold len in E.
  rewrite A4, OZ, Z.bits_0, orb_false_r by lia. unfold or_written.
  rewrite (or_fields_self _ f (written swap f v)); [f_equal; lia| | |lia].
  - clear - HA. induction HA as [|p l Hp HA IH]; cbn [map]; constructor; [|exact IH]. apply Forall_forall. intros q Hq. apply in_map_iff in Hq. destruct Hq as (r & <- & Hr). rewrite Forall_forall in Hp. cbn [fst]. apply (Hp r Hr).
  - apply in_map_iff. exists (f, v). auto.
Qed.
