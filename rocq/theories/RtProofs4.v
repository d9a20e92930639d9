From Coq Require Import ZArith Bool List Lia ZifyBool.
From Verif Require Import Mach RtModel RtSpec RtProofs RtProofs2 RtProofs3.
Open Scope Z_scope.

(** ** Rounding to a number of digits *)
Definition rne (x k : Z) : Z :=
  let q := x / 2 ^ k in let r := x mod 2 ^ k in if (2 ^ k <? 2 * r) || ((2 * r =? 2 ^ k) && Z.odd q) then q + 1 else q.
Lemma rne_close x k c : 0 < k -> 0 <= x -> Z.abs (x - rne x k * 2 ^ k) <= Z.abs (x - c * 2 ^ k) /\
  (Z.abs (x - rne x k * 2 ^ k) = Z.abs (x - c * 2 ^ k) -> c <> rne x k -> Z.even (rne x k) = true).
Proof.
  intros Hk Hx. pose proof (p2 k ltac:(lia)) as P. pose proof (Z.div_mod x (2 ^ k) ltac:(lia)) as D. pose proof (Z.mod_pos_bound x (2 ^ k) P) as B. unfold rne. cbv zeta.
  set (q := x / 2 ^ k) in *. set (r := x mod 2 ^ k) in *. set (K := 2 ^ k) in *. clearbody q r K.
  assert (CC : c <= q - 1 \/ c = q \/ c = q + 1 \/ q + 2 <= c) by lia.
  destruct (Z.ltb_spec K (2 * r)); cbn [orb]; [|destruct (Z.eqb_spec (2 * r) K); cbn [andb]; [destruct (Z.odd q) eqn:O|]];
  (split; [destruct CC as [|[->|[->|]]]; [nia|nia|nia|nia]|intros A N; destruct CC as [|[->|[->|]]]; first [lia|nia|idtac]]).
  - rewrite Z.even_add. rewrite <- Z.negb_odd, O. reflexivity.
  - rewrite <- Z.negb_odd, O. reflexivity.
Qed.
Lemma rne_bd x p k : 0 < p -> 0 < k -> 2 ^ (p + k - 1) <= x < 2 ^ (p + k) -> 2 ^ (p - 1) <= rne x k <= 2 ^ p.
Proof.
  intros Hp Hk Hx. pose proof (p2 k ltac:(lia)) as P. replace (p + k - 1) with (p - 1 + k) in Hx by lia. rewrite !Z.pow_add_r in Hx by lia.
  assert (2 ^ (p - 1) <= x / 2 ^ k) by (apply Z.div_le_lower_bound; nia). assert (x / 2 ^ k < 2 ^ p) by (apply Z.div_lt_upper_bound; nia). unfold rne. cbv zeta. destruct (_ || _); lia.
Qed.

(** The value rounded at digit [k] is the closest with [p] digits. *)
Lemma even_mul_pow2 m k : Z.even m = true -> Z.even (m * 2 ^ k) = true. Proof. intros H. rewrite Z.even_mul, H. reflexivity. Qed.
Lemma up_down e : (0 <= e /\ up e = 2 ^ e /\ down e = 1) \/ (e < 0 /\ up e = 1 /\ down e = 2 ^ (- e)).
Proof. unfold up, down. destruct (Z.lt_ge_cases e 0); [right|left]; [rewrite Z.max_l, Z.max_r by lia|rewrite Z.max_r, Z.max_l by lia]; repeat split; lia || reflexivity. Qed.
Lemma closest_round p x k b : 2 <= p -> 0 < k -> 2 ^ (p + k - 1) <= x < 2 ^ (p + k) -> (Z.even (rne x k) = true -> Z.even b = true) -> closest p x (rne x k * 2 ^ k) b.
Proof.
  intros Hp Hk Hx Hb m e Hm. assert (X0 : 0 < 2 ^ (p + k - 1)) by (apply p2; lia). assert (PK : 0 < 2 ^ k) by (apply p2; lia).
  destruct (rne_close x k (2 ^ (p - 1)) Hk ltac:(lia)) as (C1 & _). assert (E1 : 2 ^ (p - 1) * 2 ^ k = 2 ^ (p + k - 1)) by (rewrite <- Z.pow_add_r by lia; f_equal; lia).
  set (y := rne x k * 2 ^ k) in *. destruct (up_down e) as [(He & -> & ->)|(He & -> & ->)].
  - rewrite !Z.mul_1_l, !Z.mul_1_r. destruct (Z.le_gt_cases k e) as [L|L].
    + destruct (rne_close x k (m * 2 ^ (e - k)) Hk ltac:(lia)) as (C & T). rewrite <- Z.mul_assoc, <- Z.pow_add_r in C, T by lia. replace (e - k + k) with e in C, T by lia. split; [exact C|].
      intros A N. apply Hb. apply T; [exact A|]. intros F. apply N. unfold y. rewrite <- F. rewrite <- Z.mul_assoc, <- Z.pow_add_r by lia. do 2 f_equal. lia.
    + assert (Z.abs (m * 2 ^ e) < 2 ^ (p + k - 1)). { rewrite Z.abs_mul. pose proof (p2 e He). rewrite (Z.abs_eq (2 ^ e)) by lia. assert (2 ^ p * 2 ^ e <= 2 ^ (p + k - 1)); [rewrite <- Z.pow_add_r by lia; apply Z.pow_le_mono_r; lia|nia]. }
      lia.
  - rewrite !Z.mul_1_r. pose proof (p2 (- e) ltac:(lia)) as PE. assert (2 ^ p <= 2 ^ (p + k - 1)) by (apply Z.pow_le_mono_r; lia). assert (PE2 : 2 <= 2 ^ (- e)) by (change 2 with (2 ^ 1) at 1; apply Z.pow_le_mono_r; lia).
    set (D := 2 ^ (- e)) in *. assert (D * Z.abs (x - y) <= D * (x - 2 ^ (p + k - 1))) by nia. assert (D * (x - 2 ^ (p + k - 1)) < Z.abs (x * D - m)) by nia. lia.
Qed.
Lemma closest_exact p x b : closest p x x b.
Proof.
  intros m e Hm. rewrite Z.sub_diag. change (Z.abs 0) with 0. rewrite Z.mul_0_r. split; [lia|]. intros A N. lia.
Qed.

(** ** The digits the routine keeps *)
Definition good (f : fmt) : Prop := 20 <= sig f <= 52 /\ mant f = sig f + 1 /\ 8 <= ebits f <= 11 /\ bias f = 2 ^ (ebits f - 1) - 1.
Lemma good_float : good float_fmt. Proof. unfold good, float_fmt; cbn; lia. Qed.
Lemma good_double : good double_fmt. Proof. unfold good, double_fmt; cbn; lia. Qed.
Definition t_of (x k : Z) : Z := let r := x mod 2 ^ k in if r =? 0 then 0 else if 2 * r <? 2 ^ k then 1 else if 2 * r =? 2 ^ k then 2 else 3.
Lemma lor_odd u (s : bool) : Z.lor u (bit s) = if s then 2 * (u / 2) + 1 else u.
Proof.
  destruct s; cbn [bit]; [|apply Z.lor_0_r]. rewrite (Z.div_mod u 2) at 1 by lia. pose proof (Z.mod_pos_bound u 2 ltac:(lia)).
  apply Z.bits_inj'. intros n Hn. rewrite Z.lor_spec. destruct (Z.eq_dec n 0) as [->|].
  - rewrite Z.testbit_odd_0. rewrite orb_true_r. reflexivity.
  - replace n with (Z.succ (n - 1)) by lia. rewrite Z.testbit_odd_succ by lia. assert (u mod 2 = 0 \/ u mod 2 = 1) as [->| ->] by lia.
    + rewrite Z.add_0_r, Z.testbit_even_succ by lia. change 1 with (2 * 0 + 1). rewrite Z.testbit_odd_succ by lia. rewrite Z.bits_0. apply orb_false_r.
    + rewrite Z.testbit_odd_succ by lia. change 1 with (2 * 0 + 1). rewrite Z.testbit_odd_succ by lia. rewrite Z.bits_0. apply orb_false_r.
Qed.
Lemma and4 q t : 0 <= t < 4 -> negb (Z.land (4 * q + t) 4 =? 0) = Z.odd q.
Proof.
  intros H. change 4 with (2 ^ 2) at 2. assert (E : Z.testbit (4 * q + t) 2 = Z.odd q). { rewrite Z.testbit_odd, Z.shiftr_div_pow2 by lia. change (2 ^ 2) with 4. rewrite (Z.mul_comm 4), Z.div_add_l by lia. rewrite (Z.div_small t) by lia. f_equal. lia. }
  rewrite <- E. destruct (Z.testbit (4 * q + t) 2) eqn:T.
  - apply negb_true_iff. apply Z.eqb_neq. intros A. assert (F : Z.testbit (Z.land (4 * q + t) (2 ^ 2)) 2 = true) by (rewrite Z.land_spec, T, Z.pow2_bits_true by lia; reflexivity). rewrite A, Z.bits_0 in F. discriminate.
  - apply negb_false_iff. apply Z.eqb_eq. apply Z.bits_inj'. intros n Hn. rewrite Z.land_spec, Z.bits_0. destruct (Z.eq_dec n 2) as [->|]; [rewrite T; reflexivity|]. rewrite Z.pow2_bits_false by lia. apply andb_false_r.
Qed.
(** The three ways to a quotient with two further digits. *)
Lemma four x k : 3 <= k -> 0 <= x -> Z.lor (Z.shiftr x (k - 2)) (bit (negb (Z.land x (2 ^ (k - 2) - 1) =? 0))) = 4 * (x / 2 ^ k) + t_of x k.
Proof.
  intros Hk Hx. rewrite lor_odd, land_mask by lia. rewrite Z.shiftr_div_pow2 by lia. pose proof (p2 (k - 2) ltac:(lia)) as P. pose proof (Z.div_mod x (2 ^ (k - 2)) ltac:(lia)) as D. pose proof (Z.mod_pos_bound x (2 ^ (k - 2)) P) as B.
  assert (E : 2 ^ k = 2 ^ (k - 2) * 4) by (change 4 with (2 ^ 2); rewrite <- Z.pow_add_r by lia; f_equal; lia). unfold t_of. rewrite E. rewrite <- Z.div_div, Z.rem_mul_r by lia.
  set (K := 2 ^ (k - 2)) in *. set (u := x / K) in *. set (r := x mod K) in *. pose proof (Z.div_mod u 4 ltac:(lia)) as D4. pose proof (Z.mod_pos_bound u 4 ltac:(lia)) as B4. clearbody u r.
  assert (D2 : u / 2 = 2 * (u / 4) + (u mod 4) / 2). { rewrite D4 at 1. replace (4 * (u / 4) + u mod 4) with (2 * (u / 4) * 2 + u mod 4) by lia. rewrite Z.div_add_l by lia. reflexivity. }
  rewrite D2. set (v := u / 4) in *. set (t := u mod 4) in *. assert (T : t = 0 \/ t = 1 \/ t = 2 \/ t = 3) by lia. clearbody v t. cbv zeta.
  destruct T as [->|[->|[->| ->]]]; [change (0 / 2) with 0|change (1 / 2) with 0|change (2 / 2) with 1|change (3 / 2) with 1];
  destruct (Z.eqb_spec r 0); cbn [negb];
  repeat match goal with |- context [?a =? ?b] => destruct (Z.eqb_spec a b) end; repeat match goal with |- context [?a <? ?b] => destruct (Z.ltb_spec a b) end;
  repeat match goal with |- context [?a =? ?b] => destruct (Z.eqb_spec a b) end; lia.
Qed.
Lemma four1 x : 0 <= x -> 2 * x = 4 * (x / 2 ^ 1) + t_of x 1.
Proof.
  intros H. unfold t_of. change (2 ^ 1) with 2. pose proof (Z.div_mod x 2 ltac:(lia)). pose proof (Z.mod_pos_bound x 2 ltac:(lia)). cbv zeta. assert (T : x mod 2 = 0 \/ x mod 2 = 1) by lia. destruct T as [T|T]; rewrite T; destruct (Z.eqb_spec 0 0); repeat match goal with |- context [?a =? ?b] => destruct (Z.eqb_spec a b) end; repeat match goal with |- context [?a <? ?b] => destruct (Z.ltb_spec a b) end; lia.
Qed.
Lemma four2 x : 0 <= x -> x = 4 * (x / 2 ^ 2) + t_of x 2.
Proof.
  intros H. unfold t_of. change (2 ^ 2) with 4. pose proof (Z.div_mod x 4 ltac:(lia)). pose proof (Z.mod_pos_bound x 4 ltac:(lia)). cbv zeta. assert (T : x mod 4 = 0 \/ x mod 4 = 1 \/ x mod 4 = 2 \/ x mod 4 = 3) by lia.
  destruct T as [T|[T|[T|T]]]; rewrite T; destruct (Z.eqb_spec 0 0); repeat match goal with |- context [?a =? ?b] => destruct (Z.eqb_spec a b) end; repeat match goal with |- context [?a <? ?b] => destruct (Z.ltb_spec a b) end; lia.
Qed.
Lemma t_of_bd x k : 0 <= t_of x k < 4.
Proof. unfold t_of. cbv zeta. destruct (_ =? 0); [lia|]. destruct (_ <? _); [lia|]. destruct (_ =? _); lia. Qed.
(** Rounding with the two digits. *)
Lemma two_digits x k w : 0 < k -> 0 <= x -> x / 2 ^ k < 2 ^ 56 -> (forall y, 0 <= y < 2 ^ 60 -> w y = y) ->
  let a := 4 * (x / 2 ^ k) + t_of x k in Z.shiftr (w (Z.lor a (bit (negb (Z.land a 4 =? 0))) + 1)) 2 = rne x k.
Proof.
  intros Hk Hx Hq Hw a. pose proof (t_of_bd x k) as T. pose proof (p2 k ltac:(lia)) as P. assert (Q0 : 0 <= x / 2 ^ k) by (apply Z.div_pos; lia). unfold a. rewrite and4 by exact T. rewrite lor_odd. rewrite Z.shiftr_div_pow2 by lia. change (2 ^ 2) with 4.
  set (q := x / 2 ^ k) in *. assert (H2 : (4 * q + t_of x k) / 2 = 2 * q + t_of x k / 2). { replace (4 * q + t_of x k) with (2 * q * 2 + t_of x k) by lia. apply Z.div_add_l. lia. }
  assert (T2 : 0 <= t_of x k / 2 <= 1). { split; [apply Z.div_pos; lia|]. assert (t_of x k / 2 < 2); [apply Z.div_lt_upper_bound; lia|lia]. }
  rewrite Hw by (destruct (Z.odd q); lia).
  assert (R : forall c, 0 <= c < 4 -> (4 * q + c) / 4 = q) by (intros c Hc; rewrite (Z.mul_comm 4), Z.div_add_l by lia; rewrite Z.div_small by lia; lia).
  rewrite H2. clear H2 Hw. unfold rne, t_of in *. cbv zeta in *. fold q. pose proof (Z.mod_pos_bound x (2 ^ k) P) as B. set (r := x mod 2 ^ k) in *. set (K := 2 ^ k) in *. clearbody q r K.
  destruct (Z.eqb_spec r 0).
  { replace (K <? 2 * r) with false by lia. replace (2 * r =? K) with false by lia. cbn [orb andb]. change (0 / 2) with 0. destruct (Z.odd q).
    - replace (2 * (2 * q + 0) + 1 + 1) with (4 * q + 2) by lia. apply R. lia.
    - replace (4 * q + 0 + 1) with (4 * q + 1) by lia. apply R. lia. }
  destruct (Z.ltb_spec (2 * r) K).
  { replace (K <? 2 * r) with false by lia. replace (2 * r =? K) with false by lia. cbn [orb andb]. change (1 / 2) with 0. destruct (Z.odd q).
    - replace (2 * (2 * q + 0) + 1 + 1) with (4 * q + 2) by lia. apply R. lia.
    - replace (4 * q + 1 + 1) with (4 * q + 2) by lia. apply R. lia. }
  destruct (Z.eqb_spec (2 * r) K).
  { replace (K <? 2 * r) with false by lia. cbn [orb andb]. change (2 / 2) with 1. destruct (Z.odd q).
    - replace (2 * (2 * q + 1) + 1 + 1) with ((q + 1) * 4) by lia. rewrite Z.div_mul by lia. lia.
    - replace (4 * q + 2 + 1) with (4 * q + 3) by lia. apply R. lia. }
  replace (K <? 2 * r) with true by lia. cbn [orb]. change (3 / 2) with 1. destruct (Z.odd q).
  - replace (2 * (2 * q + 1) + 1 + 1) with ((q + 1) * 4) by lia. rewrite Z.div_mul by lia. lia.
  - replace (4 * q + 3 + 1) with ((q + 1) * 4) by lia. rewrite Z.div_mul by lia. lia.
Qed.
Lemma top_digit m p : 0 <= p -> 0 <= m <= 2 ^ p -> negb (Z.land m (Z.shiftl 1 p) =? 0) = (m =? 2 ^ p).
Proof.
  intros Hp Hm. rewrite Z.shiftl_mul_pow2, Z.mul_1_l by lia. pose proof (p2 p Hp). destruct (Z.eqb_spec m (2 ^ p)) as [->|NM].
  - rewrite Z.land_diag. apply negb_true_iff. lia.
  - apply negb_false_iff. apply Z.eqb_eq. apply Z.bits_inj'. intros n Hn. rewrite Z.land_spec, Z.bits_0. destruct (Z.eq_dec n p) as [->|NE]; [|rewrite Z.pow2_bits_false by lia; apply andb_false_r].
    rewrite <- (Z.mod_small m (2 ^ p)) by lia. rewrite Z.mod_pow2_bits_high by lia. reflexivity.
Qed.
Lemma round_digits_ok f w x : good f -> (forall y, 0 <= y < 2 ^ 60 -> w y = y) -> 0 < x < 2 ^ 128 ->
  round_digits f w x = let sd := Z.log2 x + 1 in
    if mant f <? sd then (let m := rne x (sd - mant f) in if m =? 2 ^ mant f then (2 ^ sig f, sd) else (m, sd - 1)) else (x * 2 ^ (mant f - sd), sd - 1).
Proof.
  intros (G1 & G2 & G3 & G4) Hw Hx. assert (L : 0 <= Z.log2 x <= 127). { split; [apply Z.log2_nonneg|]. assert (Z.log2 x < 128); [apply Z.log2_lt_pow2; lia|lia]. }
  pose proof (bits_lt x ltac:(lia)) as B. unfold round_digits, clz128. rewrite u128_small by lia. cbv zeta. replace (128 - (127 - Z.log2 x)) with (Z.log2 x + 1) by lia. set (sd := Z.log2 x + 1) in *.
  destruct (Z.ltb_spec (mant f) sd).
  - set (k := sd - mant f). assert (Hk : 0 < k) by lia. assert (Q : x / 2 ^ k < 2 ^ 56). { apply Z.div_lt_upper_bound; [apply p2; lia|]. assert (2 ^ sd <= 2 ^ k * 2 ^ 56); [rewrite <- Z.pow_add_r by lia; apply Z.pow_le_mono_r; lia|lia]. }
    assert (A : (if sd =? mant f + 1 then w (Z.shiftl x 1) else if sd =? mant f + 2 then x else Z.lor (Z.shiftr x (sd - (mant f + 2))) (bit (negb (Z.land x (Z.shiftr (2 ^ 128 - 1) (128 + mant f + 2 - sd)) =? 0)))) = 4 * (x / 2 ^ k) + t_of x k).
    { destruct (Z.eqb_spec sd (mant f + 1)).
      - replace k with 1 by lia. rewrite Z.shiftl_mul_pow2 by lia. change (x * 2 ^ 1) with (x * 2). assert (2 ^ sd <= 2 ^ 54) by (apply Z.pow_le_mono_r; lia). rewrite Hw by lia. rewrite <- four1 by lia. lia.
      - destruct (Z.eqb_spec sd (mant f + 2)); [replace k with 2 by lia; apply four2; lia|]. rewrite <- four by lia. replace (sd - (mant f + 2)) with (k - 2) by lia. do 4 f_equal. f_equal.
        rewrite Z.shiftr_div_pow2 by lia. symmetry. apply Z.div_unique with (2 ^ (128 + mant f + 2 - sd) - 1); [pose proof (p2 (128 + mant f + 2 - sd) ltac:(lia)); lia|].
        assert (2 ^ 128 = 2 ^ (128 + mant f + 2 - sd) * 2 ^ (k - 2)) by (rewrite <- Z.pow_add_r by lia; f_equal; lia). lia. }
    rewrite A. rewrite two_digits by (assumption || lia). assert (R : 2 ^ (mant f - 1) <= rne x k <= 2 ^ mant f). { apply rne_bd; try lia. replace (mant f + k) with sd by lia. replace (sd - 1) with (Z.log2 x) by lia. exact B. }
    pose proof (p2 (mant f - 1) ltac:(lia)). rewrite top_digit by lia. destruct (Z.eqb_spec (rne x k) (2 ^ mant f)) as [->|]; [|reflexivity].
    f_equal; [|lia]. rewrite Z.shiftr_div_pow2 by lia. change (2 ^ 1) with 2. rewrite G2. rewrite Z.pow_add_r by lia. apply Z.div_mul. lia.
  - f_equal. rewrite Z.shiftl_mul_pow2 by lia. apply Hw. pose proof (p2 (mant f - sd) ltac:(lia)). assert (2 ^ sd * 2 ^ (mant f - sd) <= 2 ^ 60); [rewrite <- Z.pow_add_r by lia; apply Z.pow_le_mono_r; lia|nia].
Qed.
