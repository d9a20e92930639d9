From Coq Require Import ZArith Bool List Lia ZifyBool Arith.
From Verif Require Import RndModel RndSpec.
Import ListNotations.
Local Open Scope Z_scope.

Notation p2 k := (2 ^ Z.of_nat k).
Lemma p2_S k : p2 (S k) = 2 * p2 k.
Proof. rewrite Nat2Z.inj_succ, Z.pow_succ_r by lia. reflexivity. Qed.
Lemma p2_pos k : 0 < p2 k.
Proof. apply Z.pow_pos_nonneg; lia. Qed.
Lemma odd_form m : Z.odd m = true -> exists q, m = 2 * q + 1.
Proof. intros H. apply Z.odd_spec in H. destruct H as (q & ->). exists q. reflexivity. Qed.
Lemma div2_S k x : (p2 (S k) | 2 * x) <-> (p2 k | x).
Proof. rewrite p2_S. split; [intros H; apply Z.mul_divide_cancel_l in H; [exact H|lia]|intros (q & ->); exists q; lia]. Qed.
Lemma odd_div k : forall m d, Z.odd m = true -> (p2 k | m * d) -> (p2 k | d).
Proof.
  induction k as [|k IH]; intros m d O H; [exists d; cbn; lia|]. destruct (Z.Even_or_Odd d) as [(e & ->)|(e & ->)].
  - apply div2_S. apply (IH m e O). apply div2_S. replace (2 * (m * e)) with (m * (2 * e)) by lia. exact H.
  - exfalso. destruct (odd_form m O) as (q & ->). destruct H as (z & H). rewrite p2_S in H. nia.
Qed.
Lemma odd_div_iff k m d : Z.odd m = true -> (p2 k | m * d) <-> (p2 k | d).
Proof. intros O. split; [apply odd_div; exact O|]. intros (q & ->). exists (m * q). lia. Qed.

(** 1 + a + ... + a^(n-1) *)
Fixpoint geo (a : Z) (n : nat) : Z := match n with O => 0 | S n => 1 + a * geo a n end.
Lemma geo_pow a n : (a - 1) * geo a n = a ^ Z.of_nat n - 1.
Proof. induction n as [|n IH]; [cbn; lia|]. rewrite Nat2Z.inj_succ, Z.pow_succ_r by lia. cbn [geo]. nia. Qed.
Lemma geo_add a m n : geo a (m + n) = geo a m + a ^ Z.of_nat m * geo a n.
Proof. induction m as [|m IH]; [change (Z.of_nat 0) with 0; rewrite Z.pow_0_r; cbn [geo Nat.add]; lia|]. rewrite Nat2Z.inj_succ, Z.pow_succ_r by lia. cbn [geo Nat.add]. rewrite IH. nia. Qed.
Lemma pow_mod4 a n : a mod 4 = 1 -> exists q, a ^ Z.of_nat n = 4 * q + 1.
Proof.
  intros A. induction n as [|n (q & IH)]; [exists 0; reflexivity|]. rewrite Nat2Z.inj_succ, Z.pow_succ_r, IH by lia. pose proof (Z.div_mod a 4 ltac:(lia)). exists (a / 4 * (4 * q + 1) + q). nia.
Qed.
Lemma pow_odd a n : a mod 4 = 1 -> Z.odd (a ^ Z.of_nat n) = true.
Proof. intros A. destruct (pow_mod4 a n A) as (q & ->). replace (4 * q + 1) with (1 + 2 * (2 * q)) by lia. rewrite Z.odd_add_mul_2. reflexivity. Qed.
Lemma geo_even a m : a mod 4 = 1 -> exists o, Z.odd o = true /\ geo a (2 * m) = 2 * (o * geo a m).
Proof.
  intros A. destruct (pow_mod4 a m A) as (q & E). exists (2 * q + 1). split; [replace (2 * q + 1) with (1 + 2 * q) by lia; rewrite Z.odd_add_mul_2; reflexivity|].
  replace (2 * m)%nat with (m + m)%nat by lia. rewrite geo_add, E. lia.
Qed.
Lemma div_geo a k : a mod 4 = 1 -> forall n, (p2 k | geo a n) <-> (p2 k | Z.of_nat n).
Proof.
  intros A. induction k as [|k IH]; intros n; [split; intros _; apply Z.divide_1_l|].
  destruct (Nat.Even_or_Odd n) as [(m & ->)|(m & ->)].
  - destruct (geo_even a m A) as (o & O & ->). rewrite div2_S, (odd_div_iff k o) by exact O. rewrite IH. replace (Z.of_nat (2 * m)) with (2 * Z.of_nat m) by lia. rewrite div2_S. reflexivity.
  - destruct (geo_even a m A) as (o & O & E). replace (2 * m + 1)%nat with (S (2 * m)) by lia. rewrite p2_S. split; intros (z & H); exfalso.
    + cbn [geo] in H. rewrite E in H. nia.
    + nia.
Qed.
(** Every number of the right residue is reached. *)
Lemma reach_any a u w d k : a mod 4 = 1 -> Z.odd u = true -> (d <= k)%nat -> (p2 d | w) -> exists q, (p2 k | w + geo a (2 ^ d * q) * u).
Proof.
  intros A U DK D. induction DK as [|k DK (q & IH)]; [exists O; rewrite Nat.mul_0_r; cbn; rewrite Z.add_0_r; exact D|].
  destruct IH as (e & IH). destruct (Z.Even_or_Odd e) as [(f & ->)|(f & ->)].
  - exists q. exists f. rewrite IH, p2_S. lia.
  - exists (q + 2 ^ (k - d))%nat. replace (2 ^ d * (q + 2 ^ (k - d)))%nat with (2 ^ d * q + 2 ^ k)%nat by (rewrite Nat.mul_add_distr_l, <- Nat.pow_add_r; replace (d + (k - d))%nat with k by lia; reflexivity).
    rewrite geo_add. assert (G : exists o, Z.odd o = true /\ geo a (2 ^ k) = p2 k * o).
    { clear - A. induction k as [|k (o & O & IH)]; [exists 1; split; [reflexivity|change (2 ^ 0)%nat with 1%nat; cbn [geo]; rewrite Z.mul_0_r; reflexivity]|]. cbn [Nat.pow]. replace (2 ^ k + (2 ^ k + 0))%nat with (2 * 2 ^ k)%nat by lia. destruct (geo_even a (2 ^ k) A) as (o2 & O2 & E). exists (o2 * o). split; [rewrite Z.odd_mul, O, O2; reflexivity|]. rewrite E, IH, p2_S. lia. }
    destruct G as (o & O & ->). pose proof (pow_odd a (2 ^ d * q) A) as P. set (x := a ^ Z.of_nat (2 ^ d * q)) in *. clearbody x.
    assert (OO : Z.odd (x * o * u) = true) by (rewrite !Z.odd_mul, P, O, U; reflexivity). destruct (odd_form _ OO) as (z & E). exists (f + z + 1).
    rewrite p2_S. replace (w + (geo a (2 ^ d * q) + x * (p2 k * o)) * u) with (w + geo a (2 ^ d * q) * u + p2 k * (x * o * u)) by lia. rewrite IH, E. lia.
Qed.

(** ** Linear generators *)
Section St.
Context {S : Type} (g : gen S).
Lemma state_after_add m n s : state_after g (m + n) s = state_after g n (state_after g m s).
Proof. revert s. induction m as [|m IH]; intros s; [reflexivity|]. cbn. apply IH. Qed.
Lemma state_after_S n s : state_after g (Datatypes.S n) s = snd (g (state_after g n s)).
Proof. replace (Datatypes.S n) with (n + 1)%nat by lia. rewrite state_after_add. reflexivity. Qed.
End St.
Lemma state_after_ext {S} (g h : gen S) : (forall s, snd (g s) = snd (h s)) -> forall n s, state_after g n s = state_after h n s.
Proof. intros H n. induction n as [|n IH]; intros s; [reflexivity|]. cbn. rewrite H. apply IH. Qed.
Definition linear (g : gen Z) (k a c : Z) : Prop := forall s, word_of k s -> snd (g s) = (s * a + c) mod 2 ^ k.
Section Linear.
Variables (g : gen Z) (k : nat) (a c : Z).
Hypothesis (L : linear g (Z.of_nat k) a c).
Lemma linear_word s : word_of (Z.of_nat k) s -> word_of (Z.of_nat k) (snd (g s)).
Proof. intros W. rewrite (L s W). apply Z.mod_pos_bound, p2_pos. Qed.
Lemma linear_words n s : word_of (Z.of_nat k) s -> word_of (Z.of_nat k) (state_after g n s).
Proof. revert s. induction n as [|n IH]; intros s W; [exact W|]. cbn. apply IH, linear_word, W. Qed.
Lemma linear_closed n : forall s, word_of (Z.of_nat k) s -> state_after g n s = (a ^ Z.of_nat n * s + c * geo a n) mod p2 k.
Proof.
  induction n as [|n IH]; intros s W; [cbn [state_after geo]; change (Z.of_nat 0) with 0; rewrite Z.pow_0_r, Z.mul_0_r, Z.add_0_r, Z.mul_1_l; symmetry; apply Z.mod_small, W|]. rewrite state_after_S, (L _ (linear_words n s W)), (IH s W).
  rewrite <- Z.add_mod_idemp_l, Z.mul_mod_idemp_l, Z.add_mod_idemp_l by (pose proof (p2_pos k); lia). f_equal. rewrite Nat2Z.inj_succ, Z.pow_succ_r by lia. cbn [geo].
  pose proof (geo_pow a n). nia.
Qed.
Lemma same_state x y : 0 <= y < p2 k -> x mod p2 k = y <-> (p2 k | x - y).
Proof.
  intros Y. pose proof (p2_pos k) as P. rewrite <- Z.mod_divide by lia. split; intros H.
  - rewrite <- H, Zminus_mod_idemp_r, Z.sub_diag. apply Z.mod_0_l. lia.
  - apply Z.mod_divide in H; [|lia]. destruct H as (q & H). replace x with (y + q * p2 k) by lia. rewrite Z.mod_add by lia. apply Z.mod_small, Y.
Qed.
Lemma linear_state n s t : word_of (Z.of_nat k) s -> word_of (Z.of_nat k) t -> state_after g n s = t <-> (p2 k | (s - t) + geo a n * ((a - 1) * s + c)).
Proof.
  intros W T. rewrite linear_closed by exact W. rewrite same_state by exact T. replace (a ^ Z.of_nat n * s + c * geo a n - t) with ((s - t) + geo a n * ((a - 1) * s + c)); [reflexivity|]. pose proof (geo_pow a n). nia.
Qed.
(** Full period. *)
Section Full.
Hypothesis (A : a mod 4 = 1) (C : Z.odd c = true).
Lemma slope_odd s : Z.odd ((a - 1) * s + c) = true.
Proof. destruct (odd_form c C) as (q & ->). pose proof (Z.div_mod a 4 ltac:(lia)). replace ((a - 1) * s + (2 * q + 1)) with (1 + 2 * (2 * (a / 4) * s + q)) by nia. rewrite Z.odd_add_mul_2. reflexivity. Qed.
Lemma lcg_period s : word_of (Z.of_nat k) s -> period_is g (Z.of_nat k) s.
Proof.
  intros W n. rewrite linear_state by exact W. rewrite Z.sub_diag, Z.add_0_l, Z.mul_comm, odd_div_iff by apply slope_odd. apply div_geo, A.
Qed.
Lemma lcg_reach d s t : (d <= k)%nat -> word_of (Z.of_nat k) s -> word_of (Z.of_nat k) t -> (p2 d | s - t) -> exists q, state_after g (2 ^ d * q) s = t.
Proof.
  intros DK W T D. destruct (reach_any a ((a - 1) * s + c) (s - t) d k A (slope_odd s) DK D) as (q & Q). exists q. apply linear_state; assumption.
Qed.
End Full.
(** Multiplication only. *)
Section Mul.
Hypothesis (A : a mod 8 = 5) (C : c = 0) (K : (2 <= k)%nat).
Lemma a_mod4 : a mod 4 = 1.
Proof. pose proof (Z.div_mod a 8 ltac:(lia)) as H. replace a with (1 + (2 * (a / 8) + 1) * 4) by lia. rewrite Z.mod_add by lia. reflexivity. Qed.
Lemma four_k x : (p2 k | 4 * x) <-> (p2 (k - 2) | x).
Proof. replace k with (S (S (k - 2))) at 1 by lia. replace (4 * x) with (2 * (2 * x)) by lia. rewrite !div2_S. reflexivity. Qed.
Definition quarter : Z := 2 * (a / 8) + 1.
Lemma quarter_ok : a - 1 = 4 * quarter /\ Z.odd quarter = true.
Proof. unfold quarter. pose proof (Z.div_mod a 8 ltac:(lia)). split; [lia|]. replace (2 * (a / 8) + 1) with (1 + 2 * (a / 8)) by lia. rewrite Z.odd_add_mul_2. reflexivity. Qed.
Lemma mcg_period s : Z.odd s = true -> word_of (Z.of_nat k) s -> period_is g (Z.of_nat k - 2) s.
Proof.
  intros O W n. rewrite linear_state by exact W. destruct quarter_ok as (Q1 & Q2). rewrite Z.sub_diag, Z.add_0_l, C, Z.add_0_r, Q1. replace (geo a n * (4 * quarter * s)) with (4 * ((quarter * s) * geo a n)) by lia.
  rewrite four_k, odd_div_iff by (rewrite Z.odd_mul, O, Q2; reflexivity). rewrite div_geo by apply a_mod4. replace (Z.of_nat (k - 2)) with (Z.of_nat k - 2) by lia. reflexivity.
Qed.
Lemma mcg_reach d s t : (d + 2 <= k)%nat -> Z.odd s = true -> word_of (Z.of_nat k) s -> word_of (Z.of_nat k) t -> (4 * p2 d | s - t) -> exists q, state_after g (2 ^ d * q) s = t.
Proof.
  intros DK O W T (w & D). destruct quarter_ok as (Q1 & Q2). destruct (reach_any a (quarter * s) (w * p2 d) d (k - 2) a_mod4) as (q & Q); [rewrite Z.odd_mul, O, Q2; reflexivity|lia|exists w; lia|].
  exists q. apply linear_state; [assumption|assumption|]. rewrite C, Z.add_0_r, Q1, D. replace (w * (4 * p2 d) + geo a (2 ^ d * q) * (4 * quarter * s)) with (4 * (w * p2 d + geo a (2 ^ d * q) * (quarter * s))) by lia. apply four_k, Q.
Qed.
Lemma mcg_odd n s : Z.odd s = true -> word_of (Z.of_nat k) s -> Z.odd (state_after g n s) = true.
Proof.
  revert s. induction n as [|n IH]; intros s O W; [exact O|]. cbn. apply IH; [|apply linear_word, W]. rewrite (L s W), C, Z.add_0_r.
  pose proof (Z.div_mod (s * a) (p2 k) ltac:(pose proof (p2_pos k); lia)) as E. assert (X : Z.odd (s * a) = true). { rewrite Z.odd_mul, O. pose proof (Z.div_mod a 8 ltac:(lia)) as F. replace a with (1 + 2 * (4 * (a / 8) + 2)) by lia. rewrite Z.odd_add_mul_2. reflexivity. }
  replace k with (S (k - 1)) in E at 1 by lia. rewrite p2_S in E. rewrite E in X. replace (2 * p2 (k - 1) * (s * a / p2 k) + (s * a) mod p2 k) with ((s * a) mod p2 k + 2 * (p2 (k - 1) * (s * a / p2 k))) in X by lia. rewrite Z.odd_add_mul_2 in X. exact X.
Qed.
End Mul.
End Linear.
