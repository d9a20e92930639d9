From Coq Require Import ZArith Bool List Lia ZifyBool Arith.
From Verif Require Import RndModel RndSpec RndProofs RndProofs2 RndProofs3.
Import ListNotations.
Local Open Scope Z_scope.

(** C142: the linear congruential generators, and the permuted ones built on them, have the full period: from any state the state recurs
    exactly after the multiples of 2^k calls, and every state is visited. *)
Definition full_period (g : gen Z) (k : Z) : Prop := forall s, word_of k s -> period_is g k s /\ forall t, word_of k t -> exists n, state_after g n s = t.
Lemma full g (k : nat) a c : linear g (Z.of_nat k) a c -> a mod 4 = 1 -> Z.odd c = true -> full_period g (Z.of_nat k).
Proof.
  intros L A C s W. split; [apply (lcg_period g k a c L A C s W)|]. intros t T. destruct (lcg_reach g k a c L A C 0 s t ltac:(lia) W T (Z.divide_1_l _)) as (q & Q). eexists. exact Q.
Qed.
Theorem C142_full_period :
  full_period Lcg128 128 /\ full_period Lcg64 64 /\ full_period Lcg32 32 /\ full_period Lcg16 16 /\
  full_period Pcg128 128 /\ full_period Pcg64 64 /\ full_period Pcg32 32 /\ full_period Pcg16 16 /\ full_period simple 48.
Proof.
  split; [exact (full Lcg128 128 MUL_LCG128 ODD_PHI128 (lcg_linear 128 _ _ ltac:(lia)) eq_refl eq_refl)|]. split; [exact (full Lcg64 64 MUL_LCG64 ODD_PHI64 (lcg_linear 64 _ _ ltac:(lia)) eq_refl eq_refl)|].
  split; [exact (full Lcg32 32 MUL_LCG32 ODD_PHI32 (lcg_linear 32 _ _ ltac:(lia)) eq_refl eq_refl)|]. split; [exact (full Lcg16 16 MUL_LCG16 ODD_PHI16 (lcg_linear 16 _ _ ltac:(lia)) eq_refl eq_refl)|].
  split; [exact (full Pcg128 128 MUL_LCG128 ODD_PHI128 (pcg_linear 128 _ _ _ ltac:(lia)) eq_refl eq_refl)|]. split; [exact (full Pcg64 64 MUL_LCG64 ODD_PHI64 (pcg_linear 64 _ _ _ ltac:(lia)) eq_refl eq_refl)|].
  split; [exact (full Pcg32 32 MUL_LCG32 ODD_PHI32 (pcg_linear 32 _ _ _ ltac:(lia)) eq_refl eq_refl)|]. split; [exact (full Pcg16 16 MUL_LCG16 ODD_PHI16 (pcg_linear 16 _ _ _ ltac:(lia)) eq_refl eq_refl)|].
  exact (full simple 48 0x5DEECE66D 0xB simple_linear eq_refl eq_refl).
Qed.
Print Assumptions C142_full_period.
Example C142_case : word_of 16 0x1234 /\ state_after Lcg16 1 0x1234 = 44827 /\ state_after Lcg16 3 0x1234 = 46181.
Proof. split; [unfold word_of; lia|]. split; vm_compute; reflexivity. Qed.

(** C143: the multiplicative generators, once seeded, keep an odd state, have a period of exactly a quarter of the states, and visit every
    state that leaves the same remainder modulo 4. *)
Definition quarter_period (g : gen Z) (k : Z) : Prop := forall x, word_of k x -> let s := mcg_seed x in
  word_of k s /\ period_is g (k - 2) s /\ (forall n, Z.odd (state_after g n s) = true) /\ forall t, word_of k t -> t mod 4 = s mod 4 -> exists n, state_after g n s = t.
Lemma seeded (k : nat) x : (1 <= k)%nat -> word_of (Z.of_nat k) x -> word_of (Z.of_nat k) (mcg_seed x) /\ Z.odd (mcg_seed x) = true.
Proof.
  intros K X. unfold mcg_seed. assert (O : Z.odd (Z.lor x 1) = true) by (rewrite <- Z.bit0_odd, Z.lor_spec; apply orb_true_r). split; [|exact O]. unfold word_of in *. split; [apply Z.lor_nonneg; lia|].
  assert (N : 0 < Z.lor x 1). { assert (0 <= Z.lor x 1) by (apply Z.lor_nonneg; lia). destruct (Z.eq_dec (Z.lor x 1) 0) as [E|]; [rewrite E in O; discriminate|lia]. }
  apply Z.log2_lt_pow2; [exact N|]. rewrite Z.log2_lor by lia. destruct (Z.eq_dec x 0) as [->|NX]; [cbn; lia|]. apply Z.max_lub_lt; [apply Z.log2_lt_pow2; lia|cbn; lia].
Qed.
Lemma quarterly g (k : nat) a : linear g (Z.of_nat k) a 0 -> a mod 8 = 5 -> (2 <= k)%nat -> quarter_period g (Z.of_nat k).
Proof.
  intros L A K x X. cbn zeta. destruct (seeded k x ltac:(lia) X) as (W & O). split; [exact W|]. split; [exact (mcg_period g k a 0 L A eq_refl K _ O W)|]. split; [intros n; exact (mcg_odd g k a 0 L A eq_refl K n _ O W)|].
  intros t T E. destruct (mcg_reach g k a 0 L A eq_refl K 0 (mcg_seed x) t ltac:(lia) O W T) as (q & Q); [|eexists; exact Q].
  change (4 * p2 0) with 4. apply Z.mod_divide; [lia|]. rewrite Zminus_mod, E, Z.sub_diag. reflexivity.
Qed.
Theorem C143_quarter_period : quarter_period Mcg128 128 /\ quarter_period Mcg64 64 /\ quarter_period Mcg32 32 /\ quarter_period Mcg16 16.
Proof.
  split; [exact (quarterly Mcg128 128 MUL_MCG128 (mcg_linear 128 _) eq_refl ltac:(lia))|]. split; [exact (quarterly Mcg64 64 MUL_MCG64 (mcg_linear 64 _) eq_refl ltac:(lia))|].
  split; [exact (quarterly Mcg32 32 MUL_MCG32 (mcg_linear 32 _) eq_refl ltac:(lia))|]. exact (quarterly Mcg16 16 MUL_MCG16 (mcg_linear 16 _) eq_refl ltac:(lia)).
Qed.
Print Assumptions C143_quarter_period.
Example C143_case : mcg_seed 0x1234 = 0x1235 /\ word_of 16 0x1234 /\ exists x, state_after Mcg16 2 0x1235 = x /\ Z.odd x = true.
Proof. split; [reflexivity|]. split; [unfold word_of; lia|]. eexists. split; vm_compute; reflexivity. Qed.

(** C144: no state of the chaotic generators recurs before 2^k calls, and two different states of an Sfc generator stay different. *)
Definition long_period (g : gen four) (k : Z) : Prop := forall s n, (0 < n)%nat -> state_after g n s = s -> 2 ^ k <= Z.of_nat n.
Definition lossless (g : gen four) (k : Z) : Prop := forall s t n, words_of k s -> words_of k t -> state_after g n s = state_after g n t -> s = t.
Lemma long g (k : nat) c phi : (forall s, c (snd (g s)) = wrap (Z.of_nat k) (c s + phi)) -> Z.odd phi = true -> long_period g (Z.of_nat k).
Proof. intros H O s n N E. destruct (no_return k g c phi s n H O E) as (q & Q). pose proof (p2_pos k). assert (1 <= q) by (destruct (Z.le_gt_cases q 0); [nia|lia]). nia. Qed.
Theorem C144_no_return :
  (long_period Sfc128 128 /\ long_period Sfc64 64 /\ long_period Sfc32 32 /\ long_period Sfc16 16 /\ long_period Sfc8 8) /\
  (long_period Msws128 128 /\ long_period Msws64 64 /\ long_period Msws32 32 /\ long_period Msws16 16 /\ long_period Msws8 8).
Proof.
  assert (F : forall (k : nat) r l q phi, Z.odd phi = true -> long_period (sfc (Z.of_nat k) r l q phi) (Z.of_nat k)).
  { intros k r l q phi O. apply (long _ k counter_of phi); [|exact O]. intros [[[a b] c] d]. reflexivity. }
  assert (G : forall (k : nat) phi, Z.odd phi = true -> long_period (msws (Z.of_nat k) phi) (Z.of_nat k)).
  { intros k phi O. apply (long _ k counter2_of phi); [|exact O]. intros [[[a b] c] d]. reflexivity. }
  split; [split; [exact (F 128%nat _ _ _ ODD_PHI128 eq_refl)|split; [exact (F 64%nat _ _ _ ODD_PHI64 eq_refl)|split; [exact (F 32%nat _ _ _ ODD_PHI32 eq_refl)|split; [exact (F 16%nat _ _ _ ODD_PHI16 eq_refl)|exact (F 8%nat _ _ _ ODD_PHI8 eq_refl)]]]]|].
  split; [exact (G 128%nat ODD_PHI128 eq_refl)|split; [exact (G 64%nat ODD_PHI64 eq_refl)|split; [exact (G 32%nat ODD_PHI32 eq_refl)|split; [exact (G 16%nat ODD_PHI16 eq_refl)|exact (G 8%nat ODD_PHI8 eq_refl)]]]].
Qed.
Print Assumptions C144_no_return.
Theorem C144_lossless : lossless Sfc128 128 /\ lossless Sfc64 64 /\ lossless Sfc32 32 /\ lossless Sfc16 16 /\ lossless Sfc8 8.
Proof.
  assert (F : forall (k : nat) r l q phi, 0 < r -> 0 < l -> lossless (sfc (Z.of_nat k) r l q phi) (Z.of_nat k)) by (intros k r l q phi R L s t n W T E; exact (sfc_states_inj k r l q phi n R L s t W T E)).
  split; [exact (F 128%nat 11 3 40 _ ltac:(lia) ltac:(lia))|]. split; [exact (F 64%nat 11 3 40 _ ltac:(lia) ltac:(lia))|]. split; [exact (F 32%nat 9 3 11 _ ltac:(lia) ltac:(lia))|].
  split; [exact (F 16%nat 2 3 12 _ ltac:(lia) ltac:(lia))|exact (F 8%nat 1 2 3 _ ltac:(lia) ltac:(lia))].
Qed.
Print Assumptions C144_lossless.
Example C144_case : words_of 8 (1, 2, 3, 4) /\ Sfc8 (1, 2, 3, 4) = (7, (3, 15, 103, 163)).
Proof. split; [cbn; unfold word_of; lia|reflexivity]. Qed.

(** C145: next gives a value of the range; it is the first output of the generator that falls into it; each value of the range
    comes from equally many of the 2^32 words. *)
Theorem C145_in_range : forall (S : Type) (ni : gen S) fuel range s x s', 0 < range < 2 ^ 32 -> pick ni fuel range s = Some (x, s') -> 0 <= x < range /\
  (range = 1 /\ s' = s \/ exists n m, x = output ni n s mod 2 ^ m /\ s' = state_after ni (Datatypes.S n) s /\ range <= 2 ^ m < 2 * range /\ forall i, (i < n)%nat -> range <= output ni i s mod 2 ^ m).
Proof. intros S ni. exact (pick_spec ni). Qed.
Print Assumptions C145_in_range.
Theorem C145_unbiased : forall range, 1 < range < 2 ^ 32 -> exists m, 0 <= m <= 32 /\ range <= 2 ^ m < 2 * range /\
  forall w v, 0 <= w < 2 ^ 32 -> 0 <= v < range -> (pick (fun s : unit => (w, s)) 1 range tt = Some (v, tt) <-> exists i, 0 <= i < 2 ^ (32 - m) /\ w = v + i * 2 ^ m).
Proof. exact pick_words. Qed.
Print Assumptions C145_unbiased.
(** With the linear generators it always returns. *)
Theorem C145_returns_partial : forall s,
  (word_of 128 s -> terminates (narrow Lcg128 32) s /\ terminates (narrow Pcg128 32) s) /\ (word_of 64 s -> terminates (wide Lcg64 32 0) s /\ terminates (wide Pcg64 32 0) s) /\
  (word_of 32 s -> terminates (wide Lcg32 16 1) s /\ terminates (wide Pcg32 16 1) s) /\ (word_of 16 s -> terminates (wide Lcg16 8 2) s /\ terminates (wide Pcg16 8 2) s) /\
  (word_of 48 s -> terminates (wide simple 32 0) s) /\
  (word_of 128 s -> terminates (narrow Mcg128 32) (mcg_seed s)) /\ (word_of 64 s -> terminates (wide Mcg64 32 0) (mcg_seed s)) /\
  (word_of 32 s -> terminates (wide Mcg32 16 1) (mcg_seed s)) /\ (word_of 16 s -> terminates (wide Mcg16 8 2) (mcg_seed s)).
Proof.
  intros s.
  assert (T4 : forall (g : gen Z) (d : nat), (d <= 2)%nat -> (forallb (fun t => fst (g t) =? 0) [0; 1; 2; 3] = true) -> forall t, 0 <= t < p2 d -> fst (g t) = 0).
  { intros g d D F t T. assert (p2 d <= 4) by (change 4 with (2 ^ 2); apply Z.pow_le_mono_r; lia). rewrite forallb_forall in F. apply Z.eqb_eq, F. cbn. lia. }
  assert (T16 : forall (g : gen Z) (d : nat), (d <= 2)%nat -> (forallb (fun t => fst (g t) =? 0) [0; 1; 2; 3; 4; 5; 6; 7; 8; 9; 10; 11; 12; 13; 14; 15] = true) -> forall t, 0 <= t < 4 * p2 d -> fst (g t) = 0).
  { intros g d D F t T. assert (p2 d <= 4) by (change 4 with (2 ^ 2); apply Z.pow_le_mono_r; lia). rewrite forallb_forall in F. apply Z.eqb_eq, F. cbn. lia. }
  assert (ML : forall (k : nat) mul, Z.even (Z.of_nat k) = true -> forall s, word_of (Z.of_nat k) s -> 0 <= fst (mcg (Z.of_nat k) mul s) < 2 ^ (Z.of_nat k / 2)) by (intros k mul E u W; exact (lcg_out (Z.of_nat k) mul 0 u ltac:(lia) E W)).
  split; [|split; [|split; [|split; [|split; [|split; [|split; [|split]]]]]]]; intros W.
  - split; apply term_narrow.
    + apply (linear_zeros Lcg128 128 MUL_LCG128 ODD_PHI128 0 s (lcg_linear 128 _ _ ltac:(lia)) eq_refl eq_refl ltac:(lia) W). apply T4; [lia|vm_compute; reflexivity].
    + apply (linear_zeros Pcg128 128 MUL_LCG128 ODD_PHI128 0 s (pcg_linear 128 _ _ _ ltac:(lia)) eq_refl eq_refl ltac:(lia) W). apply T4; [lia|vm_compute; reflexivity].
  - split.
    + apply (term_wide Lcg64 64 MUL_LCG64 ODD_PHI64 32 0 s (lcg_linear 64 _ _ ltac:(lia))); [intros u U; exact (lcg_out 64 _ _ u ltac:(lia) eq_refl U)| |lia|reflexivity|exact W]. apply (linear_zeros Lcg64 64 MUL_LCG64 ODD_PHI64 0 s (lcg_linear 64 _ _ ltac:(lia)) eq_refl eq_refl ltac:(lia) W). apply T4; [lia|vm_compute; reflexivity].
    + apply (term_wide Pcg64 64 MUL_LCG64 ODD_PHI64 32 0 s (pcg_linear 64 _ _ _ ltac:(lia))); [intros u U; exact (pcg_out 64 _ _ _ u ltac:(lia))| |lia|reflexivity|exact W]. apply (linear_zeros Pcg64 64 MUL_LCG64 ODD_PHI64 0 s (pcg_linear 64 _ _ _ ltac:(lia)) eq_refl eq_refl ltac:(lia) W). apply T4; [lia|vm_compute; reflexivity].
  - split.
    + apply (term_wide Lcg32 32 MUL_LCG32 ODD_PHI32 16 1 s (lcg_linear 32 _ _ ltac:(lia))); [intros u U; exact (lcg_out 32 _ _ u ltac:(lia) eq_refl U)| |lia|reflexivity|exact W]. apply (linear_zeros Lcg32 32 MUL_LCG32 ODD_PHI32 1 s (lcg_linear 32 _ _ ltac:(lia)) eq_refl eq_refl ltac:(lia) W). apply T4; [lia|vm_compute; reflexivity].
    + apply (term_wide Pcg32 32 MUL_LCG32 ODD_PHI32 16 1 s (pcg_linear 32 _ _ _ ltac:(lia))); [intros u U; exact (pcg_out 32 _ _ _ u ltac:(lia))| |lia|reflexivity|exact W]. apply (linear_zeros Pcg32 32 MUL_LCG32 ODD_PHI32 1 s (pcg_linear 32 _ _ _ ltac:(lia)) eq_refl eq_refl ltac:(lia) W). apply T4; [lia|vm_compute; reflexivity].
  - split.
    + apply (term_wide Lcg16 16 MUL_LCG16 ODD_PHI16 8 2 s (lcg_linear 16 _ _ ltac:(lia))); [intros u U; exact (lcg_out 16 _ _ u ltac:(lia) eq_refl U)| |lia|reflexivity|exact W]. apply (linear_zeros Lcg16 16 MUL_LCG16 ODD_PHI16 2 s (lcg_linear 16 _ _ ltac:(lia)) eq_refl eq_refl ltac:(lia) W). apply T4; [lia|vm_compute; reflexivity].
    + apply (term_wide Pcg16 16 MUL_LCG16 ODD_PHI16 8 2 s (pcg_linear 16 _ _ _ ltac:(lia))); [intros u U; exact (pcg_out 16 _ _ _ u ltac:(lia))| |lia|reflexivity|exact W]. apply (linear_zeros Pcg16 16 MUL_LCG16 ODD_PHI16 2 s (pcg_linear 16 _ _ _ ltac:(lia)) eq_refl eq_refl ltac:(lia) W). apply T4; [lia|vm_compute; reflexivity].
  - apply (term_wide simple 48 0x5DEECE66D 0xB 32 0 s simple_linear); [intros u _; apply simple_out|apply simple_zeros, W|lia|reflexivity|exact W].
  - destruct (seeded 128 s ltac:(lia) W) as (V & O). apply term_narrow. apply (mul_zeros Mcg128 128 MUL_MCG128 0 _ (mcg_linear 128 _) eq_refl ltac:(lia) O V). apply T16; [lia|vm_compute; reflexivity].
  - destruct (seeded 64 s ltac:(lia) W) as (V & O). apply (term_wide Mcg64 64 MUL_MCG64 0 32 0 _ (mcg_linear 64 _)); [exact (ML 64%nat _ eq_refl)| |lia|reflexivity|exact V]. apply (mul_zeros Mcg64 64 MUL_MCG64 0 _ (mcg_linear 64 _) eq_refl ltac:(lia) O V). apply T16; [lia|vm_compute; reflexivity].
  - destruct (seeded 32 s ltac:(lia) W) as (V & O). apply (term_wide Mcg32 32 MUL_MCG32 0 16 1 _ (mcg_linear 32 _)); [exact (ML 32%nat _ eq_refl)| |lia|reflexivity|exact V]. apply (mul_zeros Mcg32 32 MUL_MCG32 1 _ (mcg_linear 32 _) eq_refl ltac:(lia) O V). apply T16; [lia|vm_compute; reflexivity].
  - destruct (seeded 16 s ltac:(lia) W) as (V & O). apply (term_wide Mcg16 16 MUL_MCG16 0 8 2 _ (mcg_linear 16 _)); [exact (ML 16%nat _ eq_refl)| |lia|reflexivity|exact V]. apply (mul_zeros Mcg16 16 MUL_MCG16 2 _ (mcg_linear 16 _) eq_refl ltac:(lia) O V). apply T16; [lia|vm_compute; reflexivity].
Qed.
Print Assumptions C145_returns_partial.
Theorem C145_bounds_partial : forall (S : Type) (ni : gen S) fuel lo hi s x s', - 2 ^ 31 <= lo -> lo <= hi -> hi < 2 ^ 31 -> pick_in_range ni fuel lo hi s = Value x s' -> lo <= x <= hi.
Proof. intros S ni. exact (in_range_ok ni). Qed.
Print Assumptions C145_bounds_partial.
(** The full claim fails: the range of all ints breaks the contract of next. *)
Theorem C145_all_ints_refuted : forall (S : Type) (ni : gen S) fuel s, pick_in_range ni fuel (- 2 ^ 31) (2 ^ 31 - 1) s = Contract.
Proof. reflexivity. Qed.
Print Assumptions C145_all_ints_refuted.
Example C145_case : pick (wide Lcg16 8 2) 20 6 0x1234 = Some (4, 23528) /\ state_after Lcg16 4 0x1234 = 23528 /\ pick_in_range (wide Lcg16 8 2) 20 (-3) 3 0x1234 = Value 1 23528.
Proof. split; [|split]; vm_compute; reflexivity. Qed.

(** C146: a wider value is made of consecutive outputs, first one highest; bytes are filled with consecutive outputs, lowest byte first. *)
Theorem C146_wide_partial : forall (S : Type) (g : gen S) b d s, 0 <= b -> wide g b d s = (digits g b s 0 (2 ^ d), state_after g (2 ^ d) s).
Proof. intros S g b d s B. exact (wide_ok g b d B s). Qed.
Print Assumptions C146_wide_partial.
Theorem C146_bytes : forall (S : Type) (g : gen S) size len s, (0 < size)%nat -> (0 < len)%nat ->
  exists n, ((n - 1) * size < len <= n * size)%nat /\ to_bytes g len size len s = Some (firstn len (bytes_from g size s 0 n), state_after g n s).
Proof. intros S g size len s P L. apply to_bytes_ok; auto. Qed.
Print Assumptions C146_bytes.
(** The full claim fails: next_long of Sfc128Random never sets the upper half. *)
Theorem C146_sfc128_refuted : forall s, 0 <= fst (Sfc128_next_long s) < 2 ^ 32.
Proof. intros s. unfold Sfc128_next_long, narrow. destruct (Sfc128 s). cbn. apply Z.mod_pos_bound. lia. Qed.
Print Assumptions C146_sfc128_refuted.
Example C146_case : fst (wide Lcg16 8 1 0x1234) = 0x12 * 256 + output Lcg16 1 0x1234.
Proof. reflexivity. Qed.

(** C147: seeds of the same length, not longer than the state, give different states when the state has at least two words of 64 bits;
    so all 2^64 seeds of the default generator give different states for ever. *)
Theorem C147_seeds_partial : forall words input input', (2 <= words)%nat -> byte_list input -> byte_list input' -> length input = length input' -> (length input <= 8 * words)%nat ->
  seeder input (8 * words) = seeder input' (8 * words) -> input = input'.
Proof. exact seeder_inj. Qed.
Print Assumptions C147_seeds_partial.
Theorem C147_srand : forall x y n, word_of 64 x -> word_of 64 y -> state_after Sfc64 n (srand x) = state_after Sfc64 n (srand y) -> x = y.
Proof.
  intros x y n X Y E. destruct (srand_words x X) as (a & b & c & d & A1 & A2 & A3). destruct (srand_words y Y) as (a' & b' & c' & d' & B1 & B2 & B3).
  apply (sfc_states_inj 64 11 3 40 _ n) in E; [|lia|lia|exact A3|exact B3]. rewrite A2, B2 in E. injection E as -> -> -> ->. rewrite <- B1 in A1.
  apply (seed_words_inj 4) in A1; [|lia|apply byte_le|apply byte_le|rewrite !le_bytes_len; reflexivity|rewrite le_bytes_len; lia]. apply le_bytes_inj in A1; [exact A1|exact X|exact Y].
Qed.
Print Assumptions C147_srand.
(** The full claim fails for a state of one word, as of Lcg64Random, Pcg64Random and Mcg64Random. *)
Theorem C147_one_word_refuted : exists x y, word_of 64 x /\ word_of 64 y /\ x <> y /\ seeder (le_bytes 8 x) 8 = seeder (le_bytes 8 y) 8.
Proof. exists 12345, 9301585292315578425. unfold word_of. split; [lia|]. split; [lia|]. split; [lia|]. vm_compute. reflexivity. Qed.
Print Assumptions C147_one_word_refuted.
Example C147_case : seeder (le_bytes 8 1) 32 <> seeder (le_bytes 8 2) 32 /\ byte_list (le_bytes 8 1).
Proof. split; [vm_compute; discriminate|apply byte_le]. Qed.
