From Coq Require Import ZArith Bool List Lia ZifyBool.
From Verif Require Import Word Int128Model Int128Spec Int128Proofs Int128Proofs2.
Import ListNotations.
Open Scope Z_scope.
Ltac Zify.zify_post_hook ::= Z.div_mod_to_equations.

(** ** Shifts *)
Lemma int_shl_spec a n : valid a -> 0 <= n ->
  valid (int_shl64 a n) /\ itype (int_shl64 a n) = itype a /\
  value (int_shl64 a n) = wrap (itype a) (value a * 2 ^ n).
Proof.
  intros [Ha _] Hn. unfold int_shl64.
  destruct (shl64_spec _ n Ha Hn) as [H1 H2].
  destruct (extend_valid _ (itype a) H1) as [H3 H4].
  repeat split; try apply H3. rewrite H4, H2. apply wrap_congr.
  rewrite Z.mod_mod by discriminate. rewrite <- (value_mod a Ha). apply Zmult_mod_idemp_l.
Qed.

Lemma div_in_kind k z n : in_kind k z -> 0 <= n -> in_kind k (z / 2 ^ n).
Proof.
  intros Hz Hn. assert (HP : 1 <= 2 ^ n) by (pose proof (pow_pos n Hn); lia).
  unfold in_kind in *.
  assert (kmin k <= 0) by (destruct k; cbn; lia). assert (0 <= kmax k) by (destruct k; cbn; lia).
  generalize (kmin k) (kmax k) (2 ^ n) Hz HP H H0. clear. intros m M P Hz HP H1 H2.
  pose proof (Z.div_mod z P ltac:(lia)). pose proof (Z.mod_pos_bound z P ltac:(lia)).
  set (q := z / P) in *. split.
  - destruct (Z.ltb_spec q m); [exfalso|lia]. assert (P * q <= P * (m - 1)) by (apply Z.mul_le_mono_nonneg_l; lia).
    assert (P * (m - 1) + P <= m) by nia. lia.
  - destruct (Z.ltb_spec M q); [exfalso|lia]. assert (P * (M + 1) <= P * q) by (apply Z.mul_le_mono_nonneg_l; lia). nia.
Qed.

Lemma int_shr_spec a n : valid a -> 0 <= n ->
  valid (int_shr64 a n) /\ itype (int_shr64 a n) = itype a /\
  value (int_shr64 a n) = value a / 2 ^ n.
Proof.
  intros [Ha Hk] Hn. unfold int_shr64.
  assert (E : exists b, (if negb (ksigned (itype a)) then i128_lshr64 (ival a) n else i128_ashr64 (ival a) n) = b
      /\ wf128 b /\ uval b = (value a / 2 ^ n) mod 2 ^ 128).
  { eexists; split; [reflexivity|]. unfold value. destruct (ksigned (itype a)) eqn:Es; cbn [negb].
    - destruct (ashr64_spec _ n Ha Hn) as [H1 H2]. split; [exact H1|]. rewrite <- H2. symmetry. apply sval_mod. exact H1.
    - destruct (lshr64_spec _ n Ha Hn) as [H1 H2]. split; [exact H1|]. rewrite <- H2. symmetry. apply Z.mod_small.
      apply uval_bounds. exact H1. }
  destruct E as (b & -> & Hb & Eb).
  destruct (extend_valid b (itype a) Hb) as [H3 H4].
  repeat split; try apply H3. rewrite H4, Eb, wrap_mod. apply wrap_small, div_in_kind; assumption.
Qed.

(** ** Range check *)
Lemma fits_max_spec k : wf128 (fits_max k) /\ uval (fits_max k) = kmax k /\ (ksigned k = true -> sval (fits_max k) = kmax k).
Proof. destruct k; (split; [repeat split; vm_compute; first [reflexivity | discriminate]|split; [reflexivity|try discriminate; reflexivity]]). Qed.
Lemma fits_min_spec k : wf128 (fits_min k) /\ (ksigned k = true -> sval (fits_min k) = kmin k).
Proof. destruct k; (split; [repeat split; vm_compute; first [reflexivity | discriminate]|try discriminate; reflexivity]). Qed.

Lemma zcompare_GT x y (A : Type) (u v : A) : match zcompare x y with CMP_GT => u | _ => v end = if y <? x then u else v.
Proof. unfold zcompare. destruct (Z.ltb_spec x y); destruct (Z.eqb_spec x y); destruct (Z.ltb_spec y x); try reflexivity; lia. Qed.
Lemma zcompare_LT x y (A : Type) (u v : A) : match zcompare x y with CMP_LT => u | _ => v end = if x <? y then u else v.
Proof. unfold zcompare. destruct (Z.ltb_spec x y); destruct (Z.eqb_spec x y); try reflexivity; lia. Qed.

Lemma int_fits_spec a k : wf128 (ival a) -> int_fits a k = true <-> in_kind k (value a).
Proof.
  intros Ha. destruct (fits_max_spec k) as (M1 & M2 & M3). destruct (fits_min_spec k) as (m1 & m2).
  pose proof (uval_bounds _ Ha). unfold int_fits, value, in_kind.
  destruct (ksigned k) eqn:Ek; destruct (ksigned (itype a)) eqn:Ea.
  - rewrite !scomp_spec by assumption. rewrite M3, m2 by reflexivity.
    rewrite zcompare_LT, zcompare_GT. destruct (Z.ltb_spec (sval (ival a)) (kmin k)); destruct (Z.ltb_spec (kmax k) (sval (ival a))); split; intros; try lia; discriminate.
  - rewrite ucomp_spec, M2, zcompare_GT by assumption. assert (kmin k <= 0) by (destruct k; cbn; lia).
    destruct (Z.ltb_spec (kmax k) (uval (ival a))); split; intros; try lia; discriminate.
  - rewrite is_neg_spec by assumption. assert (kmin k = 0) by (destruct k; try discriminate Ek; reflexivity).
    destruct (Z.ltb_spec (sval (ival a)) 0) as [Hn|Hn]; [split; [discriminate|lia]|].
    rewrite (nonneg_same _ Ha Hn), ucomp_spec, M2, zcompare_GT by assumption.
    destruct (Z.ltb_spec (kmax k) (uval (ival a))); split; intros; try lia; discriminate.
  - assert (kmin k = 0) by (destruct k; try discriminate Ek; reflexivity).
    rewrite ucomp_spec, M2, zcompare_GT by assumption.
    destruct (Z.ltb_spec (kmax k) (uval (ival a))); split; intros; try lia; discriminate.
Qed.

(** ** Conversion *)
Lemma int_conv_spec a k : valid a ->
  valid (int_conv a k) /\ itype (int_conv a k) = k /\ value (int_conv a k) = wrap k (value a).
Proof.
  intros [Ha Hk].
  assert (G : itype (int_conv a k) = k /\ wf128 (ival (int_conv a k)) /\ value (int_conv a k) = wrap k (value a)).
  2:{ destruct G as (G1 & G2 & G3). repeat split; try apply G2; try exact G1; try exact G3; rewrite G1, G3; apply wrap_in_kind. }
  assert (W1 : wrap k (value a) = wrap k (uval (ival a))) by (rewrite <- (value_mod a Ha); symmetry; apply wrap_mod).
  assert (Same : in_kind k (value a) -> value (mkInt (ival a) k) = wrap k (value a)).
  { intros Hin. rewrite (wrap_small k _ Hin). apply value_unique; [exact Ha|exact Hin|].
    cbn [ival]. symmetry. apply value_mod. exact Ha. }
  unfold int_conv.
  destruct (Z.eqb_spec (kbits k) 128) as [E|E].
  { cbn [itype ival]. split; [reflexivity|split; [exact Ha|]].
    pose proof (extend_spec (ival a) k Ha) as [_ H2]. unfold i128_extend in H2. rewrite E in H2. cbn [Z.eqb Pos.eqb] in H2.
    rewrite H2. symmetry; exact W1. }
  assert (EU : forall s, s = 128 - kbits k -> wf128 (i128_lshr64 (i128_shl64 (ival a) s) s) /\
             uval (i128_lshr64 (i128_shl64 (ival a) s) s) = uval (ival a) mod 2 ^ kbits k).
  { intros s ->. assert (0 < kbits k < 128) by (destruct k; cbn in *; lia).
    destruct (shl64_spec (ival a) (128 - kbits k) Ha ltac:(lia)) as [X1 X2].
    destruct (lshr64_spec _ (128 - kbits k) X1 ltac:(lia)) as [X3 X4].
    split; [exact X3|]. rewrite X4, X2, mod_mul_pow2 by lia. replace (128 - (128 - kbits k)) with (kbits k) by lia.
    apply Z.div_mul. pose proof (pow_pos (128 - kbits k)); lia. }
  specialize (EU _ eq_refl). destruct EU as [U1 U2].
  destruct (Z.ltb_spec (kbits (itype a)) (kbits k)) as [Hlt|Hge].
  - destruct (ksigned k || Bool.eqb (ksigned k) (ksigned (itype a))) eqn:Eo.
    + cbn [itype ival]. split; [reflexivity|split; [exact Ha|]]. apply Same.
      clear - Hk Hlt Eo. revert Hk Hlt Eo. unfold in_kind, kmin, kmax. generalize (value a). destruct (itype a), k; cbn [kbits ksigned orb Bool.eqb]; intros; try discriminate; cbn in *; lia.
    + cbn [itype ival]. split; [reflexivity|split; [exact U1|]].
      assert (ksigned k = false) as Es by (destruct (ksigned k); [discriminate|reflexivity]).
      unfold value at 1. cbn [itype ival]. rewrite Es, U2, W1. unfold wrap. rewrite Es. reflexivity.
  - destruct (ksigned k) eqn:Es.
    + cbn [itype ival]. split; [reflexivity|].
      destruct (extend_spec _ k U1) as [X1 X2]. unfold i128_extend in X1, X2. rewrite Es in X1, X2.
      replace (kbits k =? 128) with false in X1, X2 by (symmetry; apply Z.eqb_neq; exact E).
      split; [exact X1|]. rewrite X2, U2, W1. unfold wrap. rewrite Es.
      rewrite swrap_mod; [reflexivity|]. destruct k; cbn; lia.
    + cbn [itype ival]. split; [reflexivity|split; [exact U1|]].
      unfold value at 1. cbn [itype ival]. rewrite Es, U2, W1. unfold wrap. rewrite Es. reflexivity.
Qed.

(** ** Count leading zeros *)
Lemma land_pow2_bit x w : 0 <= w -> 0 <= x < 2 ^ (w + 1) -> Z.land x (2 ^ w) = if x <? 2 ^ w then 0 else 2 ^ w.
Proof.
  intros Hw Hx. apply Z.bits_inj'; intros n Hn. rewrite Z.land_spec, Z.pow2_bits_eqb by lia.
  destruct (Z.eqb_spec w n) as [<-|Hne].
  - rewrite Bool.andb_true_r. destruct (Z.ltb_spec x (2 ^ w)).
    + rewrite Z.bits_0. apply small_testbit with w; lia.
    + rewrite Z.pow2_bits_true by lia.
      replace x with (1 * 2 ^ w + (x - 2 ^ w)) by lia.
      rewrite <- lor_disjoint.
      * rewrite Z.lor_spec, Z.mul_pow2_bits, Z.sub_diag by lia. reflexivity.
      * lia.
      * rewrite Z.pow_add_r in Hx by lia. lia.
  - rewrite Bool.andb_false_r. destruct (x <? 2 ^ w); [symmetry; apply Z.bits_0|].
    rewrite Z.pow2_bits_eqb by lia. symmetry. apply Z.eqb_neq. exact Hne.
Qed.

Lemma clz_step_spec w dn c n : 0 < w < 64 -> 0 <= dn -> Z.shiftr (2 ^ w) dn = w -> word n ->
  clz_step (64 - w) (2 ^ w - 1) (2 ^ w) dn (c, n) = if n <? 2 ^ (64 - w) then (c + w, n * 2 ^ w) else (c, n).
Proof.
  intros Hw Hdn Ed Hn. unfold clz_step.
  assert (Pw : 0 < 2 ^ w) by (apply pow_pos; lia). assert (P' : 0 < 2 ^ (64 - w)) by (apply pow_pos; lia).
  assert (EW : W = 2 ^ (64 - w) * 2 ^ w) by (rewrite <- Z.pow_add_r by lia; replace (64 - w + w) with 64 by lia; reflexivity).
  assert (Hq : 0 <= n / 2 ^ (64 - w) < 2 ^ w).
  { split; [apply Z.div_pos; unf; lia|]. apply Z.div_lt_upper_bound; [lia|]. rewrite <- EW. apply Hn. }
  cbv zeta. assert (Esh : wshr n (64 - w) = n / 2 ^ (64 - w)) by (apply Z.shiftr_div_pow2; lia). rewrite Esh. clear Esh.
  assert (Q0 : n < 2 ^ (64 - w) -> n / 2 ^ (64 - w) = 0) by (intros; apply Z.div_small; destruct Hn; split; assumption).
  assert (Q1 : 2 ^ (64 - w) <= n -> 1 <= n / 2 ^ (64 - w)) by (intros; apply Z.div_le_lower_bound; [exact P'|rewrite Z.mul_1_r; assumption]).
  assert (2 ^ w * 2 <= W) as Hw2.
  { replace (2 ^ w * 2) with (2 ^ (w + 1)) by (rewrite Z.pow_add_r by lia; reflexivity).
    change W with (2 ^ 64). apply Z.pow_le_mono_r; lia. }
  generalize dependent (n / 2 ^ (64 - w)). intros q Hq Q0 Q1.
  rewrite wadd_small by lia.
  rewrite land_pow2_bit; [|lia|rewrite Z.pow_add_r by lia; lia].
  destruct (Z.ltb_spec n (2 ^ (64 - w))) as [Hlt|Hge].
  - rewrite (Q0 Hlt).
    destruct (Z.ltb_spec (0 + (2 ^ w - 1)) (2 ^ w)); [|lia].
    rewrite Z.lxor_0_l. unfold wshr, wshl. rewrite Ed, Z.shiftl_mul_pow2 by lia.
    f_equal. apply Z.mod_small. rewrite EW. split; [apply Z.mul_nonneg_nonneg; unf; lia|]. apply Z.mul_lt_mono_pos_r; lia.
  - specialize (Q1 Hge).
    destruct (Z.ltb_spec (q + (2 ^ w - 1)) (2 ^ w)); [lia|].
    rewrite Z.lxor_nilpotent. unfold wshr. rewrite Z.shiftr_0_l, Z.add_0_r. unfold wshl. rewrite Z.shiftl_0_r.
    f_equal. apply Z.mod_small. exact Hn.
Qed.

Lemma clz_inv w c m n c' m' : 0 < w <= 32 -> 0 <= c -> m = n * 2 ^ c -> word m -> 2 ^ (64 - 2 * w) <= m ->
  (if m <? 2 ^ (64 - w) then (c + w, m * 2 ^ w) else (c, m)) = (c', m') ->
  0 <= c' /\ m' = n * 2 ^ c' /\ word m' /\ 2 ^ (64 - w) <= m'.
Proof.
  intros Hw Hc Hm Hwm Hlo E. destruct (Z.ltb_spec m (2 ^ (64 - w))); injection E as <- <-.
  - assert (E1 : 2 ^ (64 - w) * 2 ^ w = W) by (rewrite <- Z.pow_add_r by lia; replace (64 - w + w) with 64 by lia; reflexivity).
    assert (E2 : 2 ^ (64 - 2 * w) * 2 ^ w = 2 ^ (64 - w)) by (rewrite <- Z.pow_add_r by lia; f_equal; lia).
    assert (0 < 2 ^ w) by (apply pow_pos; lia).
    repeat split; try lia.
    + rewrite Z.pow_add_r by lia. subst m. ring.
    + apply Z.mul_nonneg_nonneg; unf; lia.
    + rewrite <- E1. apply Z.mul_lt_mono_pos_r; lia.
    + rewrite <- E2. apply Z.mul_le_mono_nonneg_r; lia.
  - repeat split; try assumption; try apply Hwm; lia.
Qed.

Lemma neg_tz n : word n -> wshr (Z.land (Z.lxor (wnot n) (wadd (wnot n) 1)) (wnot n)) 63 = if n =? 0 then 1 else 0.
Proof.
  intros Hn. destruct (Z.eqb_spec n 0) as [->|Hne]; [reflexivity|].
  assert (Hw : 0 <= wnot n < 2 ^ 64 - 1) by (unf; lia).
  rewrite wadd_small by (unf; lia). set (x := wnot n) in *.
  unfold wshr. apply Z.bits_inj'; intros i Hi. rewrite Z.shiftr_spec, Z.land_spec, Z.lxor_spec, Z.bits_0 by lia.
  destruct (Z.ltb_spec x (2 ^ 63)).
  - rewrite (small_testbit x 63 (i + 63)) by lia. apply Bool.andb_false_r.
  - destruct (Z.eqb_spec i 0) as [->|Hi0].
    + assert (T : forall y, 2 ^ 63 <= y < 2 ^ 64 -> Z.testbit y 63 = true).
      { intros y Hy. replace y with (1 * 2 ^ 63 + (y - 2 ^ 63)) by lia.
        rewrite <- lor_disjoint by (consts; lia). rewrite Z.lor_spec, Z.mul_pow2_bits by lia. reflexivity. }
      cbn [Z.add]. rewrite (T x), (T (x + 1)) by (consts; lia). reflexivity.
    + rewrite (small_testbit x 64 (i + 63)) by lia. apply Bool.andb_false_r.
Qed.

Lemma clz64_spec n : word n -> clz64 n = if n =? 0 then 64 else 63 - Z.log2 n.
Proof.
  intros Hn. destruct (Z.eqb_spec n 0) as [->|Hne]; [reflexivity|].
  unfold clz64. rewrite neg_tz by assumption. destruct (Z.eqb_spec n 0); [contradiction|].
  destruct (clz_step 32 0xffffffff 0x100000000 27 (0, n)) as [c1 n1] eqn:E1.
  destruct (clz_step 48 0xffff 0x10000 12 (c1, n1)) as [c2 n2] eqn:E2.
  destruct (clz_step 56 0xff 0x100 5 (c2, n2)) as [c3 n3] eqn:E3.
  destruct (clz_step 60 0xf 0x10 2 (c3, n3)) as [c4 n4] eqn:E4.
  destruct (clz_step 62 3 4 1 (c4, n4)) as [c5 n5] eqn:E5.
  assert (H0 : 2 ^ (64 - 2 * 32) <= n) by (change (2 ^ (64 - 2 * 32)) with 1; unf; lia).
  pose proof (clz_step_spec 32 27 0 n ltac:(lia) ltac:(lia) eq_refl Hn) as S1.
  change (64 - 32) with 32 in S1 at 1. change (2 ^ 32 - 1) with 0xffffffff in S1. change (2 ^ 32) with 0x100000000 in S1 at 1.
  rewrite E1 in S1. symmetry in S1.
  apply (clz_inv 32 0 n n) in S1; [|lia|lia|lia|assumption|assumption].
  destruct S1 as (P1 & P2 & P3 & P4).
  pose proof (clz_step_spec 16 12 c1 n1 ltac:(lia) ltac:(lia) eq_refl P3) as S2.
  change (clz_step (64 - 16) (2 ^ 16 - 1) (2 ^ 16) 12 (c1, n1)) with (clz_step 48 0xffff 0x10000 12 (c1, n1)) in S2.
  rewrite E2 in S2. symmetry in S2.
  apply (clz_inv 16 c1 n1 n) in S2; [|lia|lia|lia|assumption|assumption].
  destruct S2 as (Q1 & Q2 & Q3 & Q4).
  pose proof (clz_step_spec 8 5 c2 n2 ltac:(lia) ltac:(lia) eq_refl Q3) as S3.
  change (clz_step (64 - 8) (2 ^ 8 - 1) (2 ^ 8) 5 (c2, n2)) with (clz_step 56 0xff 0x100 5 (c2, n2)) in S3.
  rewrite E3 in S3. symmetry in S3.
  apply (clz_inv 8 c2 n2 n) in S3; [|lia|lia|lia|assumption|assumption].
  destruct S3 as (R1 & R2 & R3 & R4).
  pose proof (clz_step_spec 4 2 c3 n3 ltac:(lia) ltac:(lia) eq_refl R3) as S4.
  change (clz_step (64 - 4) (2 ^ 4 - 1) (2 ^ 4) 2 (c3, n3)) with (clz_step 60 0xf 0x10 2 (c3, n3)) in S4.
  rewrite E4 in S4. symmetry in S4.
  apply (clz_inv 4 c3 n3 n) in S4; [|lia|lia|lia|assumption|assumption].
  destruct S4 as (T1 & T2 & T3 & T4).
  pose proof (clz_step_spec 2 1 c4 n4 ltac:(lia) ltac:(lia) eq_refl T3) as S5.
  change (clz_step (64 - 2) (2 ^ 2 - 1) (2 ^ 2) 1 (c4, n4)) with (clz_step 62 3 4 1 (c4, n4)) in S5.
  rewrite E5 in S5. symmetry in S5.
  apply (clz_inv 2 c4 n4 n) in S5; [|lia|lia|lia|assumption|assumption].
  destruct S5 as (U1 & U2 & U3 & U4).
  clear - Hn Hne U1 U2 U3 U4. change (2 ^ (64 - 2)) with 4611686018427387904 in U4.
  unfold wshr. rewrite Z.shiftr_div_pow2 by lia.
  assert (L : forall c, 0 <= c -> 2 ^ 63 <= n * 2 ^ c < 2 ^ 64 -> c = 63 - Z.log2 n).
  { intros c Hc Hb.
    assert (Z.log2 (n * 2 ^ c) = 63) as X by (apply Z.log2_unique; [lia|exact Hb]).
    rewrite Z.log2_mul_pow2 in X by (unf; lia). lia. }
  destruct (Z.ltb_spec n5 (2 ^ 63)).
  - rewrite (Z.div_small n5) by (unf; lia). change (Z.lxor 0 1) with 1.
    apply L; [lia|]. rewrite Z.pow_add_r by lia. rewrite Z.mul_assoc, <- U2. unf. lia.
  - replace (n5 / 2 ^ 63) with 1 by (unf; lia). change (Z.lxor 1 1) with 0. rewrite Z.add_0_r.
    apply L; [lia|]. rewrite <- U2. unf. lia.
Qed.

Lemma i128_clz_spec a : wf128 a -> i128_clz a = if uval a =? 0 then 128 else 127 - Z.log2 (uval a).
Proof.
  intros Ha. unfold i128_clz. rewrite !clz64_spec by apply Ha.
  destruct (Z.eqb_spec (high a) 0) as [Eh|Eh]; cbn [negb].
  - replace (uval a) with (low a) by (unf; lia). destruct (Z.eqb_spec (low a) 0); lia.
  - assert (Hl : Z.log2 (uval a) = 64 + Z.log2 (high a)).
    { replace (uval a) with (Z.lor (high a * 2 ^ 64) (low a)) by (rewrite lor_disjoint by (try apply Ha; lia); reflexivity).
      assert (0 < high a) by (unf; lia).
      rewrite Z.log2_lor by (unf; lia). rewrite Z.log2_mul_pow2 by lia.
      apply Z.max_l. destruct (Z.eqb_spec (low a) 0) as [El|El]; [rewrite El; change (Z.log2 0) with 0; pose proof (Z.log2_nonneg (high a)); lia|].
      assert (Z.log2 (low a) < 64) by (apply Z.log2_lt_pow2; unf; lia). pose proof (Z.log2_nonneg (high a)); lia. }
    destruct (Z.eqb_spec (uval a) 0); [unf; lia|]. lia.
Qed.

Lemma lor1 x : x mod 2 = 0 -> Z.lor x 1 = x + 1.
Proof.
  intros H. replace x with ((x / 2) * 2 ^ 1) at 1 by (change (2 ^ 1) with 2; lia).
  rewrite lor_disjoint by (change (2 ^ 1) with 2; lia). change (2 ^ 1) with 2; lia.
Qed.

(** ** Unsigned division *)
Lemma udivrem_loop_spec : forall s op1 op2 div b,
  wf128 op1 -> wf128 op2 -> wf128 div -> 0 < b ->
  uval op2 = b * 2 ^ Z.of_nat s -> uval op1 < b * 2 ^ (Z.of_nat s + 1) ->
  uval div * (b * 2 ^ (Z.of_nat s + 1)) + uval op1 < 2 ^ 128 ->
  forall q r, udivrem_loop s op1 op2 div = (q, r) ->
  wf128 q /\ wf128 r /\ uval q * b + uval r = uval div * (b * 2 ^ (Z.of_nat s + 1)) + uval op1 /\ uval r < b.
Proof.
  induction s as [|s IH]; intros op1 op2 div b H1 H2 Hd Hb E2 Hlt Hov q r.
  - cbn [udivrem_loop]. destruct (shl64_spec div 1 Hd ltac:(lia)) as [D1 D2]. remember (i128_shl64 div 1) as dv eqn:Edv. clear Edv.
    change (2 ^ Z.of_nat 0) with 1 in *. change (2 ^ (Z.of_nat 0 + 1)) with 2 in *. change (2 ^ 1) with 2 in D2.
    pose proof (uval_bounds _ H1). pose proof (uval_bounds _ Hd).
    rewrite Z.mod_small in D2 by nia.
    rewrite ucomp_spec, zcompare_LT by assumption.
    destruct (Z.ltb_spec (uval op1) (uval op2)).
    + intros [= <- <-]. repeat split; try apply D1; try apply H1; lia.
    + destruct (sub_spec op1 op2 H1 H2) as [S1 S2]. rewrite Z.mod_small in S2 by (pose proof (uval_bounds _ H2); lia).
      intros [= <- <-].
      assert (El : Z.lor (low dv) 1 = low dv + 1).
      { apply lor1. clear - D1 D2. unf. lia. }
      rewrite El. repeat split; try apply S1; unf; lia.
  - cbn [udivrem_loop]. destruct (shl64_spec div 1 Hd ltac:(lia)) as [D1 D2]. remember (i128_shl64 div 1) as dv eqn:Edv. clear Edv. change (2 ^ 1) with 2 in D2.
    set (P := 2 ^ Z.of_nat s). assert (HP : 0 < P) by (apply pow_pos; lia).
    assert (EP : 2 ^ Z.of_nat (S s) = 2 * P) by (rewrite Nat2Z.inj_succ, Z.pow_succ_r by lia; reflexivity).
    assert (EP2 : 2 ^ (Z.of_nat (S s) + 1) = 4 * P) by (rewrite Z.pow_add_r, EP by lia; change (2 ^ 1) with 2; lia).
    assert (EP1 : 2 ^ (Z.of_nat s + 1) = 2 * P) by (rewrite Z.pow_add_r by lia; fold P; change (2 ^ 1) with 2; lia).
    rewrite EP in E2. rewrite EP2 in Hlt, Hov. rewrite EP2.
    pose proof (uval_bounds _ H1). pose proof (uval_bounds _ Hd). pose proof (uval_bounds _ H2).
    set (X := b * P) in *. assert (HX : 0 < X) by (unfold X; apply Z.mul_pos_pos; lia).
    replace (b * (2 * P)) with (2 * X) in * by (unfold X; ring).
    replace (b * (4 * P)) with (4 * X) in * by (unfold X; ring).
    rewrite Z.mod_small in D2 by nia.
    rewrite ucomp_spec, zcompare_LT by assumption.
    destruct (lshr64_spec op2 1 H2 ltac:(lia)) as [L1 L2]. change (2 ^ 1) with 2 in L2.
    rewrite E2, Z.mul_comm, Z.div_mul in L2 by lia.
    destruct (Z.ltb_spec (uval op1) (uval op2)).
    + intros HL. apply (IH _ _ _ b) in HL; try assumption.
      * rewrite EP1 in HL. replace (b * (2 * P)) with (2 * X) in HL by (unfold X; ring). rewrite D2 in HL.
        destruct HL as (A1 & A2 & A3 & A4). repeat split; try apply A1; try apply A2; try lia.
      * rewrite EP1. replace (b * (2 * P)) with (2 * X) by (unfold X; ring). lia.
      * rewrite EP1. replace (b * (2 * P)) with (2 * X) by (unfold X; ring). rewrite D2. lia.
    + destruct (sub_spec op1 op2 H1 H2) as [S1 S2]. rewrite Z.mod_small in S2 by lia.
      assert (El : Z.lor (low dv) 1 = low dv + 1).
      { apply lor1. clear - D1 D2. unf. lia. }
      rewrite El.
      assert (Hd' : wf128 (mk128 (high dv) (low dv + 1)) /\
                    uval (mk128 (high dv) (low dv + 1)) = uval div * 2 + 1) by (unf; lia).
      destruct Hd' as [Hd1 Hd2].
      intros HL. apply (IH _ _ _ b) in HL; try assumption.
      * rewrite EP1 in HL. replace (b * (2 * P)) with (2 * X) in HL by (unfold X; ring). rewrite Hd2 in HL.
        destruct HL as (A1 & A2 & A3 & A4). repeat split; try apply A1; try apply A2; try lia.
      * rewrite EP1. replace (b * (2 * P)) with (2 * X) by (unfold X; ring). lia.
      * rewrite EP1. replace (b * (2 * P)) with (2 * X) by (unfold X; ring). rewrite Hd2. lia.
Qed.

Lemma wf_zero : wf128 zero128.
Proof. unfold wf128, word, zero128; cbn. consts. lia. Qed.

Lemma udivrem_spec a b : wf128 a -> wf128 b -> uval b <> 0 ->
  wf128 (i128_udiv a b) /\ wf128 (i128_urem a b) /\
  uval (i128_udiv a b) = uval a / uval b /\ uval (i128_urem a b) = uval a mod uval b.
Proof.
  intros Ha Hb Hnz. pose proof (uval_bounds _ Ha) as Ba. pose proof (uval_bounds _ Hb) as Bb.
  assert (G : exists q r, i128_udivrem a b = (q, r) /\ wf128 q /\ wf128 r /\ uval q * uval b + uval r = uval a /\ uval r < uval b).
  { unfold i128_udivrem. rewrite !i128_clz_spec by assumption.
    destruct (Z.eqb_spec (uval b) 0); [contradiction|].
    destruct (Z.eqb_spec (uval a) 0) as [Ez|Ez].
    - pose proof (Z.log2_nonneg (uval b)).
      destruct (Z.ltb_spec (127 - Z.log2 (uval b) - 128) 0); [|lia].
      exists zero128, a. change (uval zero128) with 0.
      split; [reflexivity|split; [exact wf_zero|split; [exact Ha|split; lia]]].
    - set (sh := 127 - Z.log2 (uval b) - (127 - Z.log2 (uval a))).
      destruct (Z.ltb_spec sh 0) as [Hs|Hs].
      + exists zero128, a. assert (uval a < uval b) by (apply Z.log2_lt_cancel; lia).
        change (uval zero128) with 0.
        split; [reflexivity|split; [exact wf_zero|split; [exact Ha|split; lia]]].
      + pose proof (Z.log2_spec (uval a) ltac:(lia)) as [La1 La2].
        pose proof (Z.log2_spec (uval b) ltac:(lia)) as [Lb1 Lb2].
        assert (Hls : Z.log2 (uval a) = Z.log2 (uval b) + sh) by lia.
        assert (La : Z.log2 (uval a) < 128) by (apply Z.log2_lt_pow2; lia).
        pose proof (Z.log2_nonneg (uval b)) as Lb0.
        assert (HPs : 0 < 2 ^ sh) by (apply pow_pos; lia).
        destruct (shl64_spec b sh Hb Hs) as [S1 S2].
        assert (Hno : uval b * 2 ^ sh < 2 ^ 128).
        { apply Z.lt_le_trans with (2 ^ Z.succ (Z.log2 (uval b)) * 2 ^ sh).
          - apply Z.mul_lt_mono_pos_r; lia.
          - rewrite <- Z.pow_add_r by lia. apply Z.pow_le_mono_r; lia. }
        rewrite Z.mod_small in S2 by nia.
        destruct (udivrem_loop (Z.to_nat sh) a (i128_shl64 b sh) zero128) as [q r] eqn:EL.
        exists q, r. split; [reflexivity|].
        apply (udivrem_loop_spec _ _ _ _ (uval b)) in EL; try assumption.
        * exact wf_zero.
        * lia.
        * rewrite Z2Nat.id by lia. exact S2.
        * rewrite Z2Nat.id by lia. apply Z.lt_le_trans with (1 := La2).
          rewrite Hls. replace (Z.succ (Z.log2 (uval b) + sh)) with (Z.log2 (uval b) + (sh + 1)) by lia.
          rewrite Z.pow_add_r by lia. apply Z.mul_le_mono_nonneg_r; [pose proof (pow_pos (sh + 1)); lia|exact Lb1].
        * change (uval zero128) with 0. lia. }
  destruct G as (q & r & E & Hq & Hr & E1 & E2). unfold i128_udiv, i128_urem. rewrite E; cbn [fst snd].
  pose proof (uval_bounds _ Hr). split; [exact Hq|split; [exact Hr|]]. split.
  - apply Z.div_unique_pos with (r := uval r); lia.
  - apply Z.mod_unique_pos with (q := uval q); lia.
Qed.

(** ** Signed division *)
Lemma topbit_spec a : wf128 a -> topbit a = (sval a <? 0).
Proof.
  intros Ha. unfold topbit. change 0x8000000000000000 with (2 ^ 63). rewrite land_top by apply Ha.
  rewrite <- is_neg_spec by assumption. unfold i128_is_neg. symmetry. apply ISNEG_spec. apply Ha.
Qed.

Lemma abs_spec a : wf128 a ->
  wf128 (if topbit a then i128_neg a else a) /\ uval (if topbit a then i128_neg a else a) = Z.abs (sval a).
Proof.
  intros Ha. rewrite topbit_spec by assumption. pose proof (uval_bounds _ Ha). pose proof (sval_bounds _ Ha).
  destruct (Z.ltb_spec (sval a) 0) as [Hn|Hn].
  - destruct (neg_spec a Ha) as [H1 H2]. split; [exact H1|]. rewrite H2. unfold sval in *.
    destruct (Z.ltb_spec (uval a) (2 ^ 127)); consts; lia.
  - split; [exact Ha|]. rewrite <- nonneg_same by assumption. lia.
Qed.

Lemma neg_sval a : wf128 a -> sval (i128_neg a) = swrap 128 (- uval a).
Proof.
  intros Ha. destruct (neg_spec a Ha) as [H1 H2]. rewrite sval_uval, H2 by assumption. apply swrap_mod. lia.
Qed.

Lemma swrap_congr x y : x mod 2 ^ 128 = y mod 2 ^ 128 -> swrap 128 x = swrap 128 y.
Proof. unfold swrap. intros ->. reflexivity. Qed.

Lemma quot_sign x y : y <> 0 -> Z.quot x y = if xorb (y <? 0) (x <? 0) then - (Z.abs x / Z.abs y) else Z.abs x / Z.abs y.
Proof.
  intros Hy. destruct (Z.ltb_spec y 0), (Z.ltb_spec x 0); cbn [xorb].
  - rewrite <- Z.quot_div_nonneg by lia. rewrite !Z.abs_neq by lia. rewrite Z.quot_opp_opp by lia. reflexivity.
  - rewrite <- Z.quot_div_nonneg by lia. rewrite (Z.abs_neq y), (Z.abs_eq x) by lia. rewrite Z.quot_opp_r by lia. lia.
  - rewrite <- Z.quot_div_nonneg by lia. rewrite (Z.abs_neq x), (Z.abs_eq y) by lia. rewrite Z.quot_opp_l by lia. lia.
  - rewrite <- Z.quot_div_nonneg by lia. rewrite !Z.abs_eq by lia. reflexivity.
Qed.

Lemma sdiv_spec a b : wf128 a -> wf128 b -> sval b <> 0 ->
  wf128 (i128_sdiv a b) /\ sval (i128_sdiv a b) = swrap 128 (Z.quot (sval a) (sval b)).
Proof.
  intros Ha Hb Hnz. unfold i128_sdiv.
  destruct (abs_spec a Ha) as [A1 A2]. destruct (abs_spec b Hb) as [B1 B2].
  destruct (udivrem_spec _ _ A1 B1 ltac:(lia)) as (Q1 & _ & Q2 & _). rewrite A2, B2 in Q2.
  rewrite quot_sign by assumption. rewrite <- !topbit_spec by assumption.
  destruct (xorb (topbit b) (topbit a)).
  - split; [apply neg_spec, Q1|]. rewrite neg_sval, Q2 by assumption. reflexivity.
  - split; [exact Q1|]. rewrite sval_uval, Q2 by assumption. reflexivity.
Qed.

(** The remainder the folder computes: the magnitude is right, the sign is the
    product of the operand signs. *)
Lemma srem_spec a b : wf128 a -> wf128 b -> sval b <> 0 ->
  wf128 (i128_srem a b) /\ sval (i128_srem a b) = if sval b <? 0 then - Z.rem (sval a) (sval b) else Z.rem (sval a) (sval b).
Proof.
  intros Ha Hb Hnz. unfold i128_srem.
  destruct (abs_spec a Ha) as [A1 A2]. destruct (abs_spec b Hb) as [B1 B2].
  destruct (udivrem_spec _ _ A1 B1 ltac:(lia)) as (_ & Q1 & _ & Q2). rewrite A2, B2 in Q2.
  pose proof (sval_bounds _ Ha). pose proof (sval_bounds _ Hb).
  rewrite !topbit_spec in * by assumption.
  assert (R : Z.abs (sval a) mod Z.abs (sval b) = if sval a <? 0 then - Z.rem (sval a) (sval b) else Z.rem (sval a) (sval b)).
  { rewrite <- Z.rem_mod_nonneg by lia. rewrite Z.rem_abs_r by lia.
    destruct (Z.ltb_spec (sval a) 0); [rewrite Z.abs_neq by lia; apply Z.rem_opp_l; lia|rewrite Z.abs_eq by lia; reflexivity]. }
  pose proof (Z.mod_pos_bound (Z.abs (sval a)) (Z.abs (sval b)) ltac:(lia)) as Bd.
  assert (Bd2 : Z.abs (sval a) mod Z.abs (sval b) < 2 ^ 127) by lia.
  set (u := i128_urem (if sval a <? 0 then i128_neg a else a) (if sval b <? 0 then i128_neg b else b)) in *.
  assert (Hsv : sval u = uval u) by (unfold sval; rewrite Q2; destruct (Z.ltb_spec (Z.abs (sval a) mod Z.abs (sval b)) (2 ^ 127)); lia).
  destruct (Z.ltb_spec (sval b) 0), (Z.ltb_spec (sval a) 0); cbn [xorb].
  - split; [exact Q1|]. rewrite Hsv, Q2, R. reflexivity.
  - split; [apply neg_spec, Q1|]. rewrite neg_sval, Q2 by assumption. rewrite swrap_small by lia. rewrite R. reflexivity.
  - split; [apply neg_spec, Q1|]. rewrite neg_sval, Q2 by assumption. rewrite swrap_small by lia. rewrite R. lia.
  - split; [exact Q1|]. rewrite Hsv, Q2, R. reflexivity.
Qed.

(** ** Typed division *)
Lemma quot_in_kind k x y : in_kind k x -> in_kind k y -> y <> 0 -> ~ (ksigned k = true /\ x = kmin k /\ y = -1) -> in_kind k (Z.quot x y).
Proof.
  intros Hx Hy Hnz Hex. rewrite quot_sign by assumption.
  pose proof (Z.div_pos (Z.abs x) (Z.abs y) ltac:(lia) ltac:(lia)) as D0.
  assert (D1 : Z.abs x / Z.abs y <= Z.abs x) by (apply Z.div_le_upper_bound; nia).
  unfold in_kind in *.
  destruct (ksigned k) eqn:Es.
  - assert (kmin k = - (kmax k + 1) /\ 0 <= kmax k) as [Em HM] by (destruct k; try discriminate Es; cbn; lia).
    destruct (Z.eqb_spec (Z.abs y) 1) as [E1|E1].
    + rewrite E1, Z.div_1_r in *. destruct (Z.ltb_spec y 0), (Z.ltb_spec x 0); cbn [xorb]; try lia.
    + assert (Z.abs x / Z.abs y <= kmax k).
      { destruct (Z.eqb_spec x 0) as [->|]; [cbn; lia|].
        assert (Z.abs x / Z.abs y < Z.abs x) by (apply Z.div_lt; lia). lia. }
      destruct (xorb (y <? 0) (x <? 0)); lia.
  - assert (kmin k = 0) by (destruct k; try discriminate Es; reflexivity).
    replace (y <? 0) with false by lia. replace (x <? 0) with false by lia. cbn [xorb]. lia.
Qed.

Lemma value_signed a : ksigned (itype a) = true -> value a = sval (ival a).
Proof. unfold value. intros ->. reflexivity. Qed.
Lemma value_unsigned a : ksigned (itype a) = false -> value a = uval (ival a).
Proof. unfold value. intros ->. reflexivity. Qed.

Lemma int_div_spec a b : valid a -> valid b -> itype a = itype b -> value b <> 0 ->
  ~ (ksigned (itype a) = true /\ value a = kmin (itype a) /\ value b = -1) ->
  valid (int_div a b) /\ itype (int_div a b) = itype a /\ value (int_div a b) = Z.quot (value a) (value b).
Proof.
  intros Ha Hb E Hnz Hex.
  assert (Hin : in_kind (itype a) (Z.quot (value a) (value b))).
  { apply quot_in_kind; [apply Ha|rewrite E; apply Hb|exact Hnz|exact Hex]. }
  assert (G : wf128 (ival (int_div a b)) /\ value (int_div a b) = Z.quot (value a) (value b)).
  { unfold int_div. destruct (ksigned (itype a)) eqn:Es.
    - assert (Es' : ksigned (itype b) = true) by (rewrite <- E; exact Es).
      pose proof (in_kind_128 _ _ Hin) as H128. rewrite Es in H128.
      unfold value in *. cbn [itype ival]. rewrite Es, Es' in *.
      destruct (sdiv_spec _ _ (proj1 Ha) (proj1 Hb) Hnz) as [H1 H2]. split; [exact H1|].
      rewrite H2. apply swrap_small; [lia|]. exact H128.
    - assert (Es' : ksigned (itype b) = false) by (rewrite <- E; exact Es).
      unfold value in *. cbn [itype ival]. rewrite Es, Es' in *.
      destruct (udivrem_spec _ _ (proj1 Ha) (proj1 Hb) Hnz) as (H1 & _ & H2 & _). split; [exact H1|].
      rewrite H2. symmetry. pose proof (uval_bounds _ (proj1 Ha)). pose proof (uval_bounds _ (proj1 Hb)).
      apply Z.quot_div_nonneg; lia. }
  destruct G as [G1 G2].
  repeat split; try apply G1; try exact G2; cbn [int_div itype]; rewrite G2; apply Hin.
Qed.

Lemma rem_in_kind k x y : in_kind k x -> in_kind k y -> y <> 0 -> in_kind k (Z.rem x y) /\ (ksigned k = true -> in_kind k (- Z.rem x y)).
Proof.
  intros Hx Hy Hnz. pose proof (Z.rem_bound_abs x y Hnz) as B.
  assert (S : 0 <= x -> 0 <= Z.rem x y) by (intros; apply Z.rem_nonneg; assumption).
  unfold in_kind in *. destruct (ksigned k) eqn:Es.
  - assert (kmin k = - (kmax k + 1) /\ 0 <= kmax k) as [Em HM] by (destruct k; try discriminate Es; cbn; lia). split; intros; lia.
  - assert (kmin k = 0) by (destruct k; try discriminate Es; reflexivity). split; [lia|discriminate].
Qed.

Lemma int_rem_spec a b : valid a -> valid b -> itype a = itype b -> value b <> 0 ->
  valid (int_rem a b) /\ itype (int_rem a b) = itype a /\
  value (int_rem a b) = if value b <? 0 then - Z.rem (value a) (value b) else Z.rem (value a) (value b).
Proof.
  intros Ha Hb E Hnz.
  pose proof (rem_in_kind (itype a) (value a) (value b) (proj2 Ha) ltac:(rewrite E; apply Hb) Hnz) as [Hin Hin2].
  assert (G : wf128 (ival (int_rem a b)) /\ value (int_rem a b) = if value b <? 0 then - Z.rem (value a) (value b) else Z.rem (value a) (value b)).
  { unfold int_rem. destruct (ksigned (itype a)) eqn:Es.
    - assert (Es' : ksigned (itype b) = true) by (rewrite <- E; exact Es).
      unfold value in *. cbn [itype ival]. rewrite Es, Es' in *.
      apply (srem_spec _ _ (proj1 Ha) (proj1 Hb) Hnz).
    - assert (Es' : ksigned (itype b) = false) by (rewrite <- E; exact Es).
      unfold value in *. cbn [itype ival]. rewrite Es, Es' in *.
      destruct (udivrem_spec _ _ (proj1 Ha) (proj1 Hb) Hnz) as (_ & H1 & _ & H2). split; [exact H1|].
      pose proof (uval_bounds _ (proj1 Ha)). pose proof (uval_bounds _ (proj1 Hb)).
      rewrite H2. destruct (Z.ltb_spec (uval (ival b)) 0); [lia|]. symmetry. apply Z.rem_mod_nonneg; lia. }
  destruct G as [G1 G2].
  assert (in_kind (itype a) (value (int_rem a b))).
  { rewrite G2. destruct (Z.ltb_spec (value b) 0) as [Hn|Hn]; [|exact Hin]. apply Hin2.
    destruct (ksigned (itype a)) eqn:Es; [reflexivity|]. exfalso.
    rewrite value_unsigned in Hn by (rewrite <- E; exact Es). pose proof (uval_bounds _ (proj1 Hb)). lia. }
  repeat split; try apply G1; try exact G2; cbn [int_rem itype]; apply H.
Qed.

(** ** Bits needed *)
Lemma log2_fits z n : 0 < z -> 0 <= n -> z < 2 ^ n <-> Z.log2 z < n.
Proof. intros Hz Hn. apply Z.log2_lt_pow2. exact Hz. Qed.

Lemma bits_needed_unsigned a : valid a -> ksigned (itype a) = false ->
  forall n, 0 <= n -> (int_bits_needed a <= n <-> value a < 2 ^ n).
Proof.
  intros [Ha _] Es n Hn. rewrite value_unsigned by assumption. unfold int_bits_needed. rewrite Es.
  rewrite i128_clz_spec by assumption. pose proof (uval_bounds _ Ha).
  destruct (Z.eqb_spec (uval (ival a)) 0) as [E|E].
  - rewrite E. pose proof (pow_pos n Hn). lia.
  - rewrite log2_fits by lia. lia.
Qed.

Lemma bits_needed_signed a : valid a -> ksigned (itype a) = true ->
  forall n, 1 <= n -> (int_bits_needed a <= n <-> - 2 ^ (n - 1) <= value a < 2 ^ (n - 1)).
Proof.
  intros [Ha _] Es n Hn. rewrite value_signed by assumption. unfold int_bits_needed. rewrite Es.
  rewrite is_neg_spec by assumption. pose proof (uval_bounds _ Ha). pose proof (sval_bounds _ Ha).
  pose proof (pow_pos (n - 1) ltac:(lia)).
  destruct (Z.ltb_spec (sval (ival a)) 0) as [Hneg|Hpos].
  - destruct (neg_spec _ Ha) as [N1 N2].
    destruct (sub64_spec _ 1 N1 ltac:(unf; lia)) as [M1 M2].
    assert (EM : uval (i128_sub64 (i128_neg (ival a)) 1) = - sval (ival a) - 1).
    { rewrite M2, N2. unfold sval in *. destruct (Z.ltb_spec (uval (ival a)) (2 ^ 127)); consts; lia. }
    rewrite i128_clz_spec by assumption. rewrite EM.
    destruct (Z.eqb_spec (- sval (ival a) - 1) 0); [lia|].
    pose proof (log2_fits (- sval (ival a) - 1) (n - 1) ltac:(lia) ltac:(lia)). lia.
  - rewrite i128_clz_spec by assumption. rewrite <- (nonneg_same _ Ha Hpos).
    destruct (Z.eqb_spec (sval (ival a)) 0); [lia|].
    pose proof (log2_fits (sval (ival a)) (n - 1) ltac:(lia) ltac:(lia)). lia.
Qed.
