From Coq Require Import ZArith Bool List Lia ZifyBool.
From Verif Require Import Word Int128Model Int128Spec Int128Proofs.
Import ListNotations.
Open Scope Z_scope.
Ltac Zify.zify_post_hook ::= Z.div_mod_to_equations.

Lemma swrap_mod b x m : 0 < b <= m -> swrap b (x mod 2 ^ m) = swrap b x.
Proof.
  intros H. unfold swrap.
  replace ((x mod 2 ^ m) mod 2 ^ b) with (x mod 2 ^ b); [reflexivity|].
  rewrite (pow_split b m) by lia. rewrite Z.rem_mul_r by (pose proof (pow_pos b); pose proof (pow_pos (m-b)); lia).
  rewrite (Z.mul_comm (2 ^ b)), Z_mod_plus_full, Z.mod_mod; [reflexivity|].
  pose proof (pow_pos b); lia.
Qed.

Lemma uwrap_mod b x m : 0 <= b <= m -> uwrap b (x mod 2 ^ m) = uwrap b x.
Proof.
  intros H. unfold uwrap.
  rewrite (pow_split b m) by lia. rewrite Z.rem_mul_r by (pose proof (pow_pos b); pose proof (pow_pos (m-b)); lia).
  rewrite (Z.mul_comm (2 ^ b)), Z_mod_plus_full, Z.mod_mod; [reflexivity|].
  pose proof (pow_pos b); lia.
Qed.

Lemma swrap_range b x : 0 < b -> - 2 ^ (b - 1) <= swrap b x < 2 ^ (b - 1).
Proof.
  intros H. unfold swrap. pose proof (Z.mod_pos_bound x (2 ^ b) ltac:(apply pow_pos; lia)).
  assert (2 ^ b = 2 * 2 ^ (b - 1)) by (rewrite (pow_split 1 b) by lia; reflexivity).
  destruct (Z.ltb_spec (x mod 2 ^ b) (2 ^ (b - 1))); lia.
Qed.

Lemma swrap_small b x : 0 < b -> - 2 ^ (b - 1) <= x < 2 ^ (b - 1) -> swrap b x = x.
Proof.
  intros H Hx. unfold swrap.
  assert (E : 2 ^ b = 2 * 2 ^ (b - 1)) by (rewrite (pow_split 1 b) by lia; reflexivity).
  destruct (Z.ltb_spec x 0).
  - replace (x mod 2 ^ b) with (x + 2 ^ b).
    + destruct (Z.ltb_spec (x + 2 ^ b) (2 ^ (b - 1))); lia.
    + apply Z.mod_unique_pos with (q := -1); lia.
  - rewrite Z.mod_small by lia. destruct (Z.ltb_spec x (2 ^ (b - 1))); lia.
Qed.

Lemma wrap_in_kind k z : in_kind k (wrap k z).
Proof.
  unfold in_kind, wrap, kmin, kmax. destruct (ksigned k) eqn:E.
  - pose proof (swrap_range (kbits k) z ltac:(destruct k; reflexivity)). lia.
  - unfold uwrap. pose proof (Z.mod_pos_bound z (2 ^ kbits k) ltac:(apply pow_pos; destruct k; cbn; lia)). lia.
Qed.

Lemma wrap_small k z : in_kind k z -> wrap k z = z.
Proof.
  unfold in_kind, wrap, kmin, kmax. destruct (ksigned k) eqn:E; intros H.
  - apply swrap_small; [destruct k; reflexivity|lia].
  - apply Z.mod_small. lia.
Qed.

Lemma wrap_mod k z : wrap k (z mod 2 ^ 128) = wrap k z.
Proof.
  unfold wrap. destruct (ksigned k).
  - apply swrap_mod. destruct k; cbn; lia.
  - apply uwrap_mod. destruct k; cbn; lia.
Qed.

Lemma wrap_congr k x y : x mod 2 ^ 128 = y mod 2 ^ 128 -> wrap k x = wrap k y.
Proof. intros H. rewrite <- (wrap_mod k x), <- (wrap_mod k y), H. reflexivity. Qed.

Lemma sval_uval a : wf128 a -> sval a = swrap 128 (uval a).
Proof.
  intros Ha. unfold swrap, sval. rewrite Z.mod_small by (apply uval_bounds; exact Ha). reflexivity.
Qed.

(** value of a constant modulo 2^128 is the raw pair *)
Lemma value_mod a : wf128 (ival a) -> value a mod 2 ^ 128 = uval (ival a).
Proof.
  intros Ha. unfold value. destruct (ksigned (itype a)).
  - apply sval_mod; exact Ha.
  - apply Z.mod_small, uval_bounds, Ha.
Qed.

Lemma extend_spec a k : wf128 a ->
  wf128 (i128_extend a k) /\ value (mkInt (i128_extend a k) k) = wrap k (uval a).
Proof.
  intros Ha. pose proof (uval_bounds a Ha) as Hb. unfold i128_extend.
  destruct (Z.eqb_spec (kbits k) 128) as [E|E].
  { split; [exact Ha|]. unfold value, wrap; cbn [ival itype]. rewrite E. destruct (ksigned k).
    - apply sval_uval; exact Ha.
    - unfold uwrap. symmetry. apply Z.mod_small. exact Hb. }
  assert (Hk : 0 < kbits k < 128) by (destruct k; cbn in *; lia).
  set (b := kbits k) in *. set (s := 128 - b).
  destruct (shl64_spec a s Ha ltac:(lia)) as [Hw Hv].
  rewrite mod_mul_pow2 in Hv by lia. replace (128 - s) with b in Hv by lia.
  assert (Hm : 0 <= uval a mod 2 ^ b < 2 ^ b) by (apply Z.mod_pos_bound, pow_pos; lia).
  assert (HP : 0 < 2 ^ s) by (apply pow_pos; lia).
  destruct (ksigned k) eqn:Es.
  - destruct (ashr64_spec _ s Hw ltac:(lia)) as [Hw2 Hv2].
    split; [exact Hw2|]. unfold value, wrap; cbn [ival itype]. rewrite Es, Hv2. fold b.
    unfold swrap, sval. rewrite Hv. set (r := uval a mod 2 ^ b) in *.
    assert (E127 : 2 ^ 127 = 2 ^ (b - 1) * 2 ^ s) by (rewrite <- Z.pow_add_r by lia; f_equal; lia).
    assert (E128 : 2 ^ 128 = 2 ^ b * 2 ^ s) by (rewrite <- Z.pow_add_r by lia; f_equal; lia).
    rewrite E127, E128.
    destruct (Z.ltb_spec r (2 ^ (b - 1))); destruct (Z.ltb_spec (r * 2 ^ s) (2 ^ (b - 1) * 2 ^ s)); try (exfalso; clear - HP H H0; nia).
    + apply Z.div_mul. lia.
    + rewrite <- Z.mul_sub_distr_r. apply Z.div_mul. lia.
  - destruct (lshr64_spec _ s Hw ltac:(lia)) as [Hw2 Hv2].
    split; [exact Hw2|]. unfold value, wrap; cbn [ival itype]. rewrite Es, Hv2, Hv. fold b.
    unfold uwrap. apply Z.div_mul. lia.
Qed.

Lemma extend_valid a k : wf128 a ->
  valid (mkInt (i128_extend a k) k) /\ value (mkInt (i128_extend a k) k) = wrap k (uval a).
Proof.
  intros Ha. destruct (extend_spec a k Ha) as [H1 H2]. repeat split; try exact H2; try apply H1;
  cbn [itype]; rewrite H2; apply wrap_in_kind.
Qed.

(** ** Type-level arithmetic *)
Lemma mod_add_congr a b : (a mod 2 ^ 128 + b mod 2 ^ 128) mod 2 ^ 128 = (a + b) mod 2 ^ 128.
Proof. symmetry. apply Zplus_mod. Qed.

Lemma int_add_spec a b : valid a -> valid b -> itype a = itype b ->
  valid (int_add a b) /\ itype (int_add a b) = itype a /\
  value (int_add a b) = wrap (itype a) (value a + value b).
Proof.
  intros [Ha _] [Hb _] E. unfold int_add.
  destruct (add_spec _ _ Ha Hb) as [H1 H2].
  destruct (extend_valid _ (itype a) H1) as [H3 H4].
  repeat split; try apply H3. rewrite H4, H2. apply wrap_congr.
  rewrite Z.mod_mod by discriminate. rewrite <- (value_mod a Ha), <- (value_mod b Hb). symmetry. apply Zplus_mod.
Qed.

Lemma int_add64_spec a b : valid a -> word b ->
  valid (int_add64 a b) /\ itype (int_add64 a b) = itype a /\
  value (int_add64 a b) = wrap (itype a) (value a + b).
Proof.
  intros [Ha _] Hb. unfold int_add64.
  destruct (add64_spec _ _ Ha Hb) as [H1 H2].
  destruct (extend_valid _ (itype a) H1) as [H3 H4].
  repeat split; try apply H3. rewrite H4, H2. apply wrap_congr.
  rewrite Z.mod_mod by discriminate. rewrite <- (value_mod a Ha). apply Zplus_mod_idemp_l.
Qed.

Lemma int_sub_spec a b : valid a -> valid b -> itype a = itype b ->
  valid (int_sub a b) /\ itype (int_sub a b) = itype a /\
  value (int_sub a b) = wrap (itype a) (value a - value b).
Proof.
  intros [Ha _] [Hb _] E. unfold int_sub.
  destruct (sub_spec _ _ Ha Hb) as [H1 H2].
  destruct (extend_valid _ (itype a) H1) as [H3 H4].
  repeat split; try apply H3. rewrite H4, H2. apply wrap_congr.
  rewrite Z.mod_mod by discriminate. rewrite <- (value_mod a Ha), <- (value_mod b Hb). symmetry. apply Zminus_mod.
Qed.

Lemma int_sub64_spec a b : valid a -> word b ->
  valid (int_sub64 a b) /\ itype (int_sub64 a b) = itype a /\
  value (int_sub64 a b) = wrap (itype a) (value a - b).
Proof.
  intros [Ha _] Hb. unfold int_sub64.
  destruct (sub64_spec _ _ Ha Hb) as [H1 H2].
  destruct (extend_valid _ (itype a) H1) as [H3 H4].
  repeat split; try apply H3. rewrite H4, H2. apply wrap_congr.
  rewrite Z.mod_mod by discriminate. rewrite <- (value_mod a Ha). apply Zminus_mod_idemp_l.
Qed.

Lemma int_mul_spec a b : valid a -> valid b -> itype a = itype b ->
  valid (int_mul a b) /\ itype (int_mul a b) = itype a /\
  value (int_mul a b) = wrap (itype a) (value a * value b).
Proof.
  intros [Ha _] [Hb _] E. unfold int_mul.
  destruct (mult_spec _ _ Ha Hb) as [H1 H2].
  destruct (extend_valid _ (itype a) H1) as [H3 H4].
  repeat split; try apply H3. rewrite H4, H2. apply wrap_congr.
  rewrite Z.mod_mod by discriminate. rewrite <- (value_mod a Ha), <- (value_mod b Hb). symmetry. apply Zmult_mod.
Qed.

Lemma zero_valid k : valid (mkInt zero128 k) /\ value (mkInt zero128 k) = 0.
Proof. split; [|destruct k; reflexivity]. split; [unf; cbn; lia|]. unfold in_kind, kmin, kmax, value; destruct k; cbn; lia. Qed.

Lemma int_neg_spec a : valid a ->
  valid (int_neg a) /\ itype (int_neg a) = itype a /\ value (int_neg a) = wrap (itype a) (- value a).
Proof.
  intros Ha. unfold int_neg. destruct (zero_valid (itype a)) as [Hz Ez].
  destruct (int_sub_spec (mkInt zero128 (itype a)) a Hz Ha eq_refl) as (H1 & H2 & H3).
  repeat split; try apply H1. rewrite H3, Ez. reflexivity.
Qed.

Lemma int_not_spec a : valid a ->
  valid (int_not a) /\ itype (int_not a) = itype a /\ value (int_not a) = wrap (itype a) (Z.lnot (value a)).
Proof.
  intros [Ha _]. unfold int_not.
  destruct (not_spec _ Ha) as [H1 H2].
  destruct (extend_valid _ (itype a) H1) as [H3 H4].
  repeat split; try apply H3. rewrite H4, H2. apply wrap_congr.
  rewrite <- (value_mod a Ha). unfold Z.lnot. consts. lia.
Qed.

(** ** Bitwise operations *)
Lemma uval_testbit a n : wf128 a -> 0 <= n ->
  Z.testbit (uval a) n = if n <? 64 then Z.testbit (low a) n else Z.testbit (high a) (n - 64).
Proof.
  intros [Hh Hl] Hn. unfold uval. rewrite <- lor_disjoint by (try exact Hl; lia).
  rewrite Z.lor_spec. destruct (Z.ltb_spec n 64).
  - rewrite Z.mul_pow2_bits_low by lia. reflexivity.
  - rewrite Z.mul_pow2_bits by lia. rewrite (small_testbit (low a) 64 n) by (try exact Hl; lia).
    apply Bool.orb_false_r.
Qed.

Lemma word_bits x : 0 <= x -> (forall n, 64 <= n -> Z.testbit x n = false) -> word x.
Proof.
  intros Hx H. split; [exact Hx|]. destruct (Z.ltb_spec x W) as [|Hge]; [assumption|exfalso].
  assert (0 < x) by (revert Hge; consts; lia).
  pose proof (Z.bit_log2 x ltac:(lia)) as B. rewrite H in B; [discriminate|].
  apply Z.log2_le_pow2; [lia|]. exact Hge.
Qed.

Lemma land_word a b : word a -> word b -> word (Z.land a b).
Proof. intros Ha Hb. apply word_bits; [apply Z.land_nonneg; unf; lia|]. intros n Hn.
  rewrite Z.land_spec, (small_testbit a 64 n) by (try exact Ha; lia). reflexivity. Qed.
Lemma lor_word a b : word a -> word b -> word (Z.lor a b).
Proof. intros Ha Hb. apply word_bits; [apply Z.lor_nonneg; unf; lia|]. intros n Hn.
  rewrite Z.lor_spec, (small_testbit a 64 n), (small_testbit b 64 n) by (try exact Ha; try exact Hb; lia). reflexivity. Qed.
Lemma lxor_word a b : word a -> word b -> word (Z.lxor a b).
Proof. intros Ha Hb. apply word_bits; [apply Z.lxor_nonneg; unf; lia|]. intros n Hn.
  rewrite Z.lxor_spec, (small_testbit a 64 n), (small_testbit b 64 n) by (try exact Ha; try exact Hb; lia). reflexivity. Qed.

Lemma and_spec a b : wf128 a -> wf128 b ->
  wf128 (i128_and a b) /\ uval (i128_and a b) = Z.land (uval a) (uval b).
Proof.
  intros Ha Hb. assert (Hw : wf128 (i128_and a b)).
  { split; cbn [i128_and high low]; apply land_word; first [apply Ha | apply Hb]. }
  split; [exact Hw|]. apply Z.bits_inj'; intros n Hn.
  rewrite Z.land_spec, !uval_testbit by assumption. cbn [i128_and high low].
  destruct (n <? 64); apply Z.land_spec.
Qed.
Lemma or_spec a b : wf128 a -> wf128 b ->
  wf128 (i128_or a b) /\ uval (i128_or a b) = Z.lor (uval a) (uval b).
Proof.
  intros Ha Hb. assert (Hw : wf128 (i128_or a b)).
  { split; cbn [i128_or high low]; apply lor_word; first [apply Ha | apply Hb]. }
  split; [exact Hw|]. apply Z.bits_inj'; intros n Hn.
  rewrite Z.lor_spec, !uval_testbit by assumption. cbn [i128_or high low].
  destruct (n <? 64); apply Z.lor_spec.
Qed.
Lemma xor_spec a b : wf128 a -> wf128 b ->
  wf128 (i128_xor a b) /\ uval (i128_xor a b) = Z.lxor (uval a) (uval b).
Proof.
  intros Ha Hb. assert (Hw : wf128 (i128_xor a b)).
  { split; cbn [i128_xor high low]; apply lxor_word; first [apply Ha | apply Hb]. }
  split; [exact Hw|]. apply Z.bits_inj'; intros n Hn.
  rewrite Z.lxor_spec, !uval_testbit by assumption. cbn [i128_xor high low].
  destruct (n <? 64); apply Z.lxor_spec.
Qed.

(** Bitwise operations on mathematical integers preserve the range of a type:
    a range of a type is the set of z whose bits from position p up agree. *)
Definition sgnbits p z := z / 2 ^ p = 0 \/ z / 2 ^ p = -1.
Lemma sgnbits_iff p z : 0 <= p -> (- 2 ^ p <= z < 2 ^ p <-> sgnbits p z).
Proof.
  intros Hp. pose proof (pow_pos p Hp). unfold sgnbits. split.
  - intros. destruct (Z.ltb_spec z 0).
    + right. symmetry. apply Z.div_unique_pos with (r := z + 2 ^ p); lia.
    + left. apply Z.div_small; lia.
  - pose proof (Z.div_mod z (2 ^ p) ltac:(lia)). pose proof (Z.mod_pos_bound z (2 ^ p) ltac:(lia)).
    intros [E|E]; rewrite E in *; lia.
Qed.

Definition bitop_ok (f : Z -> Z -> Z) (g : bool -> bool -> bool) :=
  (forall a b n, Z.testbit (f a b) n = g (Z.testbit a n) (Z.testbit b n)) /\ g false false = false.

Lemma bitop_div f g p a b : bitop_ok f g -> 0 <= p -> f a b / 2 ^ p = f (a / 2 ^ p) (b / 2 ^ p).
Proof.
  intros [H _] Hp. rewrite <- !Z.shiftr_div_pow2 by lia. apply Z.bits_inj'; intros n Hn.
  rewrite H, !Z.shiftr_spec by lia. apply H.
Qed.
Lemma bitop_mod f g p a b : bitop_ok f g -> 0 <= p -> f a b mod 2 ^ p = f (a mod 2 ^ p) (b mod 2 ^ p).
Proof.
  intros [H H0] Hp. apply Z.bits_inj'; intros n Hn. rewrite H.
  destruct (Z.ltb_spec n p).
  - rewrite !Z.mod_pow2_bits_low by lia. apply H.
  - rewrite !Z.mod_pow2_bits_high by lia. symmetry; exact H0.
Qed.

Lemma land_ok : bitop_ok Z.land andb. Proof. split; [apply Z.land_spec|reflexivity]. Qed.
Lemma lor_ok : bitop_ok Z.lor orb. Proof. split; [apply Z.lor_spec|reflexivity]. Qed.
Lemma lxor_ok : bitop_ok Z.lxor xorb. Proof. split; [apply Z.lxor_spec|reflexivity]. Qed.

Lemma bitop_closed f g : bitop_ok f g -> forall x y, (x = 0 \/ x = -1) -> (y = 0 \/ y = -1) -> (f x y = 0 \/ f x y = -1).
Proof.
  intros [H H0] x y Hx Hy.
  assert (C : forall z, (forall n, 0 <= n -> Z.testbit z n = false) -> z = 0)
    by (intros z Hz; apply Z.bits_inj'; intros n Hn; rewrite Hz, Z.bits_0 by lia; reflexivity).
  assert (D : forall z, (forall n, 0 <= n -> Z.testbit z n = true) -> z = -1)
    by (intros z Hz; apply Z.bits_inj'; intros n Hn; rewrite Hz, Z.bits_m1 by lia; reflexivity).
  destruct Hx as [-> | ->], Hy as [-> | ->].
  - left. apply C. intros n Hn. rewrite H, Z.bits_0. exact H0.
  - destruct (g false true) eqn:E; [right; apply D | left; apply C]; intros n Hn; rewrite H, Z.bits_0, Z.bits_m1 by lia; exact E.
  - destruct (g true false) eqn:E; [right; apply D | left; apply C]; intros n Hn; rewrite H, Z.bits_0, Z.bits_m1 by lia; exact E.
  - destruct (g true true) eqn:E; [right; apply D | left; apply C]; intros n Hn; rewrite H, Z.bits_m1 by lia; exact E.
Qed.

Lemma bitop_in_kind f g k x y : bitop_ok f g -> in_kind k x -> in_kind k y -> in_kind k (f x y).
Proof.
  intros Hf. unfold in_kind, kmin, kmax. destruct (ksigned k).
  - intros Hx Hy.
    assert (sgnbits (kbits k - 1) (f x y)) as HS.
    { unfold sgnbits. rewrite (bitop_div f g) by (try exact Hf; destruct k; cbn; lia).
      apply (bitop_closed f g Hf); apply sgnbits_iff; try (destruct k; cbn; lia); lia. }
    apply sgnbits_iff in HS; [lia|destruct k; cbn; lia].
  - intros Hx Hy.
    assert (E : f x y = f x y mod 2 ^ kbits k).
    { rewrite (bitop_mod f g) by (try exact Hf; destruct k; cbn; lia). rewrite !Z.mod_small by lia. reflexivity. }
    rewrite E. pose proof (Z.mod_pos_bound (f x y) (2 ^ kbits k) ltac:(apply pow_pos; destruct k; cbn; lia)). lia.
Qed.

Lemma in_kind_128 k z : in_kind k z -> (if ksigned k then - 2 ^ 127 <= z < 2 ^ 127 else 0 <= z < 2 ^ 128).
Proof. unfold in_kind, kmin, kmax. destruct k; cbn [ksigned kbits]; cbn; lia. Qed.

Lemma value_unique a z : wf128 (ival a) -> in_kind (itype a) z -> uval (ival a) = z mod 2 ^ 128 -> value a = z.
Proof.
  intros Hw Hz E. apply in_kind_128 in Hz. unfold value. destruct (ksigned (itype a)).
  - apply sval_unique; assumption.
  - rewrite E. apply Z.mod_small. exact Hz.
Qed.

Lemma int_bitop_spec f g h a b : bitop_ok f g ->
  (forall a b, wf128 a -> wf128 b -> wf128 (h a b) /\ uval (h a b) = f (uval a) (uval b)) ->
  valid a -> valid b -> itype a = itype b ->
  let r := mkInt (h (ival a) (ival b)) (itype a) in
  valid r /\ itype r = itype a /\ value r = f (value a) (value b).
Proof.
  intros Hf Hh Ha Hb E r. destruct (Hh _ _ (proj1 Ha) (proj1 Hb)) as [H1 H2].
  assert (Hk : in_kind (itype a) (f (value a) (value b))).
  { apply (bitop_in_kind f g); [exact Hf|apply Ha|rewrite E; apply Hb]. }
  assert (Hv : value r = f (value a) (value b)).
  { apply value_unique; [exact H1|exact Hk|]. cbn [r ival]. rewrite H2.
    rewrite (bitop_mod f g) by (try exact Hf; lia). rewrite !value_mod by (apply Ha || apply Hb). reflexivity. }
  repeat split; try apply H1; try exact Hv; cbn [r itype]; rewrite Hv; apply Hk.
Qed.

(** ** Comparisons *)
Definition zcompare (x y : Z) : CmpRes := if x <? y then CMP_LT else if x =? y then CMP_EQ else CMP_GT.

Lemma ucomp_spec a b : wf128 a -> wf128 b -> i128_ucomp a b = zcompare (uval a) (uval b).
Proof.
  destruct a as [ah al], b as [bh bl]. intros Ha Hb. unfold i128_ucomp, zcompare, uval; cbn [high low].
  unf. repeat match goal with |- context [?x <? ?y] => destruct (Z.ltb_spec x y) | |- context [?x =? ?y] => destruct (Z.eqb_spec x y) end; try reflexivity; lia.
Qed.

Lemma land_top h : word h -> negb (Z.land h (2 ^ 63) =? 0) = (2 ^ 63 <=? h).
Proof.
  intros Hh.
  assert (E : Z.land h (2 ^ 63) = if 2 ^ 63 <=? h then 2 ^ 63 else 0).
  { apply Z.bits_inj'; intros n Hn. rewrite Z.land_spec, Z.pow2_bits_eqb by lia.
    destruct (Z.eqb_spec 63 n) as [<-|Hne].
    - rewrite Bool.andb_true_r. destruct (Z.leb_spec (2 ^ 63) h).
      + replace h with (1 * 2 ^ 63 + (h - 2 ^ 63)) by (consts; lia).
        rewrite <- lor_disjoint by (unf; lia). rewrite Z.lor_spec, Z.mul_pow2_bits by lia. reflexivity.
      + rewrite Z.bits_0. apply small_testbit with 63; [unf; lia|lia].
    - rewrite Bool.andb_false_r. destruct (Z.leb_spec (2 ^ 63) h); [|symmetry; apply Z.bits_0].
      rewrite Z.pow2_bits_eqb by lia. symmetry. apply Z.eqb_neq. exact Hne. }
  rewrite E. destruct (2 ^ 63 <=? h); reflexivity.
Qed.

Lemma sval_high a : wf128 a -> sval a = if 2 ^ 63 <=? high a then uval a - 2 ^ 128 else uval a.
Proof. intros Ha. rewrite sval_alt, ISNEG_spec by (try apply Ha; exact Ha). reflexivity. Qed.

Lemma scomp_spec a b : wf128 a -> wf128 b -> i128_scomp a b = zcompare (sval a) (sval b).
Proof.
  intros Ha Hb. rewrite !sval_high by assumption. unfold i128_scomp.
  rewrite !land_top by (apply Ha || apply Hb).
  destruct a as [ah al], b as [bh bl]. unfold zcompare, uval; cbn [high low].
  unf. destruct (Z.leb_spec 9223372036854775808 ah); destruct (Z.leb_spec 9223372036854775808 bh); cbn [Bool.eqb negb];
  repeat match goal with |- context [?x <? ?y] => destruct (Z.ltb_spec x y) | |- context [?x =? ?y] => destruct (Z.eqb_spec x y) end; try reflexivity; lia.
Qed.

Lemma is_neg_spec a : wf128 a -> i128_is_neg a = (sval a <? 0).
Proof.
  intros Ha. pose proof (uval_bounds a Ha). unfold i128_is_neg. rewrite sval_high, ISNEG_spec by (try exact Ha; apply Ha).
  destruct (Z.leb_spec (2 ^ 63) (high a)); lia.
Qed.

Lemma nonneg_same a : wf128 a -> 0 <= sval a -> sval a = uval a.
Proof. intros Ha. pose proof (uval_bounds a Ha). unfold sval. destruct (Z.ltb_spec (uval a) (2 ^ 127)); consts; lia. Qed.

Lemma int_compare_spec a b : wf128 (ival a) -> wf128 (ival b) -> int_compare a b = zcompare (value a) (value b).
Proof.
  intros Ha Hb. unfold int_compare, int_is_neg, value.
  destruct (ksigned (itype a)), (ksigned (itype b)); cbn [negb].
  - apply scomp_spec; assumption.
  - rewrite is_neg_spec by assumption. destruct (Z.ltb_spec (sval (ival a)) 0) as [H|H].
    + pose proof (uval_bounds _ Hb). unfold zcompare. destruct (Z.ltb_spec (sval (ival a)) (uval (ival b))); [reflexivity|lia].
    + rewrite (nonneg_same _ Ha H). apply ucomp_spec; assumption.
  - rewrite is_neg_spec by assumption. destruct (Z.ltb_spec (sval (ival b)) 0) as [H|H].
    + pose proof (uval_bounds _ Ha). unfold zcompare. destruct (Z.ltb_spec (uval (ival a)) (sval (ival b))); [lia|].
      destruct (Z.eqb_spec (uval (ival a)) (sval (ival b))); [lia|reflexivity].
    + rewrite (nonneg_same _ Hb H). apply ucomp_spec; assumption.
  - apply ucomp_spec; assumption.
Qed.

Lemma matches_spec op x y : binary_op_matches_res op (zcompare x y) = zcmp op x y.
Proof. unfold zcompare. destruct op; cbn [zcmp]; destruct (Z.ltb_spec x y); destruct (Z.eqb_spec x y); cbn; lia. Qed.

Lemma int_comp_spec a b op : wf128 (ival a) -> wf128 (ival b) -> int_comp a b op = zcmp op (value a) (value b).
Proof. intros. unfold int_comp. rewrite int_compare_spec by assumption. apply matches_spec. Qed.

Lemma int_ucomp_spec a n op : wf128 (ival a) -> word n -> int_ucomp a n op = zcmp op (value a) n.
Proof.
  intros Ha Hn. unfold int_ucomp. rewrite <- matches_spec. f_equal.
  unfold int_unsigned_compare, value. destruct (ksigned (itype a)); cbn [andb].
  - rewrite is_neg_spec by assumption. destruct (Z.ltb_spec (sval (ival a)) 0) as [H|H].
    + unfold zcompare. destruct (Z.ltb_spec (sval (ival a)) n); [reflexivity|unf; lia].
    + rewrite (nonneg_same _ Ha H). destruct (ival a) as [h l]. unfold zcompare. unf.
      destruct (Z.eqb_spec h 0); destruct (Z.ltb_spec n l); destruct (Z.ltb_spec l n); cbn [negb orb];
      repeat match goal with |- context [?x <? ?y] => destruct (Z.ltb_spec x y) | |- context [?x =? ?y] => destruct (Z.eqb_spec x y) end; try reflexivity; lia.
  - destruct (ival a) as [h l]. unfold zcompare. unf.
      destruct (Z.eqb_spec h 0); destruct (Z.ltb_spec n l); destruct (Z.ltb_spec l n); cbn [negb orb];
      repeat match goal with |- context [?x <? ?y] => destruct (Z.ltb_spec x y) | |- context [?x =? ?y] => destruct (Z.eqb_spec x y) end; try reflexivity; lia.
Qed.

Lemma from_signed_spec i : - 2 ^ 63 <= i < 2 ^ 63 -> wf128 (i128_from_signed i) /\ sval (i128_from_signed i) = i.
Proof.
  intros Hi. assert (Hw : wf128 (i128_from_signed i)).
  { unfold i128_from_signed; split; cbn [high low]; [destruct (i <? 0); unf; lia|apply w64_word]. }
  split; [exact Hw|]. apply sval_unique; [exact Hw|consts; lia|].
  unfold i128_from_signed. destruct (Z.ltb_spec i 0); unf; lia.
Qed.

Lemma int_icomp_spec a n op : wf128 (ival a) -> - 2 ^ 63 <= n < 2 ^ 63 -> int_icomp a n op = zcmp op (value a) n.
Proof.
  intros Ha Hn. unfold int_icomp. rewrite <- matches_spec. f_equal.
  unfold int_signed_compare, value. destruct (ksigned (itype a)).
  - destruct (from_signed_spec n Hn) as [H1 H2]. rewrite scomp_spec, H2 by assumption. reflexivity.
  - destruct (ival a) as [h l]. unfold zcompare. unf.
    destruct (Z.eqb_spec h 0); destruct (Z.ltb_spec n 0); destruct (Z.ltb_spec (n mod 18446744073709551616) l); destruct (Z.ltb_spec l (n mod 18446744073709551616)); cbn [negb orb];
      repeat match goal with |- context [?x <? ?y] => destruct (Z.ltb_spec x y) | |- context [?x =? ?y] => destruct (Z.eqb_spec x y) end; try reflexivity; lia.
Qed.
