(** Checksums: the tables are remainders of polynomials; a changed byte always changes the checksum. *)
From Coq Require Import ZArith Bool List Lia ZifyBool.
From Verif Require Import Mach ListAux HashModel HashSpec HashBits.
Import ListNotations.
Open Scope Z_scope.

(** ** Polynomials *)
Definition cong (g a b : Z) : Prop := exists n q, a = xor (pmul n q g) b.
Lemma pmul_ext n : forall a a' g, (forall i, 0 <= i < Z.of_nat n -> Z.testbit a i = Z.testbit a' i) -> pmul n a g = pmul n a' g.
Proof.
  induction n as [|n IH]; intros a a' g H; cbn [pmul]; [reflexivity|]. rewrite (IH a a') by (intros; apply H; lia). rewrite (H (Z.of_nat n)) by lia. reflexivity.
Qed.
Lemma pmul_more n k : forall a g, (forall i, Z.of_nat n <= i -> Z.testbit a i = false) -> pmul (n + k) a g = pmul n a g.
Proof.
  induction k as [|k IH]; intros a g H; [rewrite Nat.add_0_r; reflexivity|]. rewrite Nat.add_succ_r. cbn [pmul]. rewrite IH by exact H.
  rewrite H by lia. unfold xor. apply Z.lxor_0_r.
Qed.
Lemma pmul_xor n : forall a b g, pmul n (Z.lxor a b) g = xor (pmul n a g) (pmul n b g).
Proof.
  induction n as [|n IH]; intros a b g; cbn [pmul]; [reflexivity|]. rewrite IH, Z.lxor_spec. unfold xor.
  destruct (Z.testbit a (Z.of_nat n)), (Z.testbit b (Z.of_nat n)); cbn [xorb]; rewrite ?Z.lxor_0_r; try reflexivity.
  - rewrite (Z.lxor_assoc (pmul n a g)), (Z.lxor_comm (g * _)), !Z.lxor_assoc, Z.lxor_nilpotent, Z.lxor_0_r. reflexivity.
  - rewrite !Z.lxor_assoc. f_equal. apply Z.lxor_comm.
  - rewrite !Z.lxor_assoc. reflexivity.
Qed.
Lemma pmul_cut n a g : pmul n a g = pmul n (a mod 2 ^ Z.of_nat n) g.
Proof. apply pmul_ext. intros i Hi. rewrite Z.mod_pow2_bits_low by lia. reflexivity. Qed.
Lemma pmul_any n k a g : pmul n a g = pmul (n + k) (a mod 2 ^ Z.of_nat n) g.
Proof. rewrite pmul_more; [apply pmul_cut|]. intros i Hi. apply Z.mod_pow2_bits_high. lia. Qed.
Lemma lxor_mul a b k : 0 <= k -> Z.lxor a b * 2 ^ k = Z.lxor (a * 2 ^ k) (b * 2 ^ k).
Proof. intros H. rewrite <- !Z.shiftl_mul_pow2 by lia. apply Z.shiftl_lxor. Qed.
Lemma pmul_shift n : forall a g k, pmul (n + k) (a * 2 ^ Z.of_nat k) g = pmul n a g * 2 ^ Z.of_nat k.
Proof.
  induction n as [|n IH]; intros a g k; cbn [pmul Nat.add].
  - transitivity (pmul k 0 g); [apply pmul_ext; intros i Hi; rewrite Z.mul_pow2_bits_low, Z.testbit_0_l by lia; reflexivity|].
    apply (pmul_more 0 k 0 g). intros; apply Z.testbit_0_l.
  - rewrite IH. unfold xor. rewrite lxor_mul by lia. f_equal. rewrite Nat2Z.inj_add. rewrite Z.mul_pow2_bits by lia. rewrite Z.add_simpl_r.
    destruct (Z.testbit a (Z.of_nat n)); [|reflexivity]. rewrite Z.pow_add_r by lia. ring.
Qed.
Lemma cong_refl g a : cong g a a.
Proof. exists 0%nat, 0. reflexivity. Qed.
Lemma cong_eq g a b : a = b -> cong g a b.
Proof. intros ->. apply cong_refl. Qed.
Lemma cong_xor g a b c d : cong g a b -> cong g c d -> cong g (Z.lxor a c) (Z.lxor b d).
Proof.
  intros (n & q & ->) (n' & q' & ->). exists (n + n')%nat, (Z.lxor (q mod 2 ^ Z.of_nat n) (q' mod 2 ^ Z.of_nat n')).
  rewrite pmul_xor, <- pmul_any, (Nat.add_comm n n'), <- pmul_any. unfold xor.
  rewrite !Z.lxor_assoc. f_equal. rewrite <- !Z.lxor_assoc. f_equal. apply Z.lxor_comm.
Qed.
Lemma cong_trans g a b c : cong g a b -> cong g b c -> cong g a c.
Proof.
  intros H H'. pose proof (cong_xor g _ _ _ _ H H') as (n & q & E). exists n, q.
  apply (f_equal (Z.lxor b)) in E. rewrite (Z.lxor_comm a b), <- Z.lxor_assoc, Z.lxor_nilpotent, Z.lxor_0_l in E. rewrite E. unfold xor.
  rewrite (Z.lxor_comm (pmul n q g) (Z.lxor b c)), Z.lxor_assoc, <- Z.lxor_assoc, Z.lxor_nilpotent, Z.lxor_0_l. apply Z.lxor_comm.
Qed.
Lemma cong_shift g a b k : cong g a b -> cong g (a * 2 ^ Z.of_nat k) (b * 2 ^ Z.of_nat k).
Proof. intros (n & q & ->). exists (n + k)%nat, (q * 2 ^ Z.of_nat k). unfold xor. rewrite lxor_mul by lia. rewrite pmul_shift. reflexivity. Qed.

(** The remainder is unique. *)
Lemma pmul_range n d q g : 0 <= d -> 0 <= g < 2 ^ (d + 1) -> 0 <= pmul n q g < 2 ^ (d + Z.of_nat n).
Proof.
  intros Hd Hg. induction n as [|n IH]; cbn [pmul]; [split; [lia|apply Z.pow_pos_nonneg; lia]|].
  rewrite Nat2Z.inj_succ. unfold xor. apply lxor_range; [lia| |].
  - split; [lia|]. apply Z.lt_le_trans with (m := 2 ^ (d + Z.of_nat n)); [lia|]. apply Z.pow_le_mono_r; lia.
  - assert (0 < 2 ^ (d + Z.succ (Z.of_nat n))) by (apply Z.pow_pos_nonneg; lia).
    destruct (Z.testbit q (Z.of_nat n)); [|lia]. replace (d + Z.succ (Z.of_nat n)) with ((d + 1) + Z.of_nat n) by lia. rewrite Z.pow_add_r by lia.
    assert (0 < 2 ^ Z.of_nat n) by (apply Z.pow_pos_nonneg; lia). nia.
Qed.
Lemma top_bit g d : 0 <= d -> 2 ^ d <= g < 2 ^ (d + 1) -> Z.testbit g d = true.
Proof.
  intros Hd Hg. rewrite Z.testbit_true by lia. replace (g / 2 ^ d) with 1; [reflexivity|].
  apply Z.div_unique with (r := g - 2 ^ d); [left|lia]. replace (2 ^ (d + 1)) with (2 ^ d * 2) in Hg by (rewrite Z.pow_add_r by lia; reflexivity). lia.
Qed.
Lemma pmul_small n d q g : 0 <= d -> 2 ^ d <= g < 2 ^ (d + 1) -> pmul n q g < 2 ^ d -> pmul n q g = 0.
Proof.
  intros Hd Hg. induction n as [|n IH]; cbn [pmul]; [reflexivity|]. destruct (Z.testbit q (Z.of_nat n)) eqn:Eb; intros H.
  - exfalso. assert (0 < 2 ^ d) by (apply Z.pow_pos_nonneg; lia).
    assert (B : Z.testbit (xor (pmul n q g) (g * 2 ^ Z.of_nat n)) (d + Z.of_nat n) = true).
    { unfold xor. rewrite Z.lxor_spec, Z.mul_pow2_bits by lia. rewrite Z.add_simpl_r, (top_bit g d Hd Hg).
      rewrite (bits_word (d + Z.of_nat n) (pmul n q g)); [reflexivity| |lia]. apply pmul_range; lia. }
    pose proof (pmul_range (S n) d q g Hd ltac:(lia)) as R. cbn [pmul] in R. rewrite Eb in R.
    rewrite (bits_word d) in B; [discriminate B|split; [apply R|exact H]|lia].
  - unfold xor in *. rewrite Z.lxor_0_r in *. apply IH. exact H.
Qed.
Lemma pmod_unique a g d r r' : 0 <= d -> 2 ^ d <= g < 2 ^ (d + 1) -> pmod a g d r -> pmod a g d r' -> r = r'.
Proof.
  intros Hd Hg (R & n & q & E) (R' & n' & q' & E'). assert (C : cong g (Z.lxor a a) (Z.lxor r r')) by (apply cong_xor; [exists n, q|exists n', q']; assumption).
  destruct C as (n2 & q2 & C). rewrite Z.lxor_nilpotent in C. symmetry in C. apply Z.lxor_eq in C.
  apply Z.lxor_eq. rewrite <- C. apply pmul_small with (d := d); try assumption. rewrite C. apply lxor_range; lia.
Qed.

(** ** One byte of the division *)
Definition number_from (z : Z) (m : list Z) : Z := fold_left (fun a x => a * 256 + x) m z.
Lemma number_from_eq m : forall z, number_from z m = z * 256 ^ len m + number m.
Proof.
  unfold number_from, len. induction m as [|x t IH]; intros z; cbn [fold_left number length].
  - change (256 ^ Z.of_nat 0) with 1. lia.
  - rewrite IH. unfold len. rewrite Nat2Z.inj_succ, Z.pow_succ_r by lia. ring.
Qed.
Lemma lxor_add n a b : 0 <= n -> 0 <= b < 2 ^ n -> Z.lxor (a * 2 ^ n) b = a * 2 ^ n + b.
Proof.
  intros Hn Hb. symmetry. apply Z.add_nocarry_lxor. apply Z.bits_inj'. intros i Hi. rewrite Z.land_spec, Z.testbit_0_l.
  destruct (Z_lt_le_dec i n) as [L|L]; [rewrite Z.mul_pow2_bits_low by lia; reflexivity|]. rewrite (bits_word n b) by lia. apply andb_false_r.
Qed.
Section Division.
Context (g : Z) (k : nat) (table : Z -> Z) (step : Z -> Z -> Z).
Let d := Z.of_nat k + 8.
Context (Ht : forall v, byte v -> 0 <= table v < 2 ^ d /\ cong g (v * 2 ^ d) (table v)).
Context (Hstep : forall r x, 0 <= r < 2 ^ d -> byte x -> step r x = Z.lxor ((r * 256) mod 2 ^ d) (table (Z.lxor (r / 2 ^ Z.of_nat k) x))).
Lemma low_high r n : 0 <= n -> r * 256 = Z.lxor ((r / 2 ^ n) * 2 ^ (n + 8)) ((r * 256) mod 2 ^ (n + 8)).
Proof.
  intros Hn. replace (r / 2 ^ n * 2 ^ (n + 8)) with ((r * 256) / 2 ^ (n + 8) * 2 ^ (n + 8)).
  - apply Z.bits_inj'. intros i Hi. rewrite Z.lxor_spec. destruct (Z_lt_le_dec i (n + 8)) as [L|L].
    + rewrite Z.mul_pow2_bits_low, Z.mod_pow2_bits_low, xorb_false_l by lia. reflexivity.
    + rewrite (Z.mod_pow2_bits_high (r * 256)) by lia. rewrite xorb_false_r. rewrite Z.mul_pow2_bits, Z.div_pow2_bits by lia. f_equal. lia.
  - f_equal. rewrite Z.pow_add_r by lia. change (2 ^ 8) with 256. rewrite Z.div_mul_cancel_r by lia. reflexivity.
Qed.
Lemma step_range r x : 0 <= r < 2 ^ d -> byte x -> 0 <= step r x < 2 ^ d.
Proof.
  intros Hr Hx. rewrite Hstep by assumption. apply lxor_range; [lia| |].
  - apply Z.mod_pos_bound. lia.
  - apply Ht. apply (lxor_range 8); [lia| |exact Hx]. split; [apply Z.div_pos; lia|]. apply Z.div_lt_upper_bound; [lia|].
    replace (2 ^ Z.of_nat k * 2 ^ 8) with (2 ^ d); [lia|]. unfold d. apply Z.pow_add_r; lia.
Qed.
Lemma step_cong a r x : 0 <= r < 2 ^ d -> byte x -> cong g a r -> cong g (Z.lxor (a * 256) (x * 2 ^ d)) (step r x).
Proof.
  intros Hr Hx Ha. rewrite Hstep by assumption.
  assert (Hv : byte (Z.lxor (r / 2 ^ Z.of_nat k) x)).
  { apply (lxor_range 8); [lia| |exact Hx]. split; [apply Z.div_pos; lia|]. apply Z.div_lt_upper_bound; [lia|].
    replace (2 ^ Z.of_nat k * 2 ^ 8) with (2 ^ d); [lia|]. unfold d. apply Z.pow_add_r; lia. }
  apply cong_trans with (b := Z.lxor (r * 256) (x * 2 ^ d)).
  - apply cong_xor; [|apply cong_refl]. change 256 with (2 ^ Z.of_nat 8). apply cong_shift. exact Ha.
  - rewrite (low_high r (Z.of_nat k)) at 1 by lia. fold d. rewrite (Z.lxor_comm (_ * 2 ^ d)), Z.lxor_assoc, <- lxor_mul by lia.
    apply cong_xor; [apply cong_refl|]. apply Ht. exact Hv.
Qed.
(** After the message [m] the register [r0] has become the remainder of the message with [r0] in front of it. *)
Lemma steps_cong m : forall a r, 0 <= r < 2 ^ d -> Forall byte m -> cong g a r ->
  0 <= fold_left step m r < 2 ^ d /\ cong g (Z.lxor (a * 256 ^ len m) (number m * 2 ^ d)) (fold_left step m r).
Proof.
  induction m as [|x t IH]; intros a r Hr Hm Ha; cbn [fold_left number].
  - split; [exact Hr|]. change (len []) with 0. rewrite Z.mul_0_l, Z.lxor_0_r, Z.mul_1_r. exact Ha.
  - apply Forall_cons_iff in Hm. destruct Hm as [Hx Ht'].
    destruct (IH (Z.lxor (a * 256) (x * 2 ^ d)) (step r x) (step_range r x Hr Hx) Ht' (step_cong a r x Hr Hx Ha)) as (R & C).
    split; [exact R|]. eapply cong_trans; [apply cong_eq|exact C].
    unfold len. cbn [length]. rewrite Nat2Z.inj_succ, Z.pow_succ_r by lia.
    set (n := Z.of_nat (length t)). assert (E : forall u, u * 256 ^ n = u * 2 ^ (8 * n)) by (intros u; rewrite Z.pow_mul_r by lia; reflexivity).
    rewrite (E (Z.lxor _ _)), lxor_mul by lia. rewrite Z.lxor_assoc. f_equal; [rewrite <- E; ring|].
    rewrite <- !E. assert (B : 0 <= number t < 2 ^ (8 * n)).
    { unfold n. clear - Ht'. induction t as [|y t IH]; cbn [number length]; [lia|]. apply Forall_cons_iff in Ht'. destruct Ht' as [Hy Ht'].
      specialize (IH Ht'). unfold len. rewrite Nat2Z.inj_succ. replace (8 * Z.succ (Z.of_nat (length t))) with (8 + 8 * Z.of_nat (length t)) by lia.
      rewrite Z.pow_add_r by lia. change (2 ^ 8) with 256. replace (256 ^ Z.of_nat (length t)) with (2 ^ (8 * Z.of_nat (length t))) by (rewrite Z.pow_mul_r by lia; reflexivity).
      unfold byte in Hy. nia. }
    unfold len. fold n. rewrite E. replace (x * 2 ^ d * 256 ^ n) with (x * 2 ^ (8 * n) * 2 ^ d) by (rewrite <- E; ring).
    rewrite <- lxor_mul by lia. f_equal.
    symmetry. apply lxor_add; lia.
Qed.
End Division.

(** ** The tables *)
Definition quotient (a g d : Z) : Z :=
  snd (fold_left (fun s i => if Z.testbit (fst s) (i + d) then (Z.lxor (fst s) (g * 2 ^ i), snd s + 2 ^ i) else s) [7; 6; 5; 4; 3; 2; 1; 0] (a, 0)).
Definition entry_ok (n : nat) (g d : Z) (table : Z -> Z) (v : Z) : bool :=
  (Z.lxor (pmul n (quotient (v * 2 ^ d) g d) g) (table v) =? v * 2 ^ d) && (0 <=? table v) && (table v <? 2 ^ d).
Definition all_bytes : list Z := map Z.of_nat (seq 0 256).
Lemma all_bytes_in v : byte v -> In v all_bytes.
Proof. intros H. unfold byte in H. unfold all_bytes. replace v with (Z.of_nat (Z.to_nat v)) by lia. apply in_map, in_seq. lia. Qed.
Lemma all_bytes_forall (P : Z -> bool) : forallb P all_bytes = true -> forall v, byte v -> P v = true.
Proof. intros H v Hv. rewrite forallb_forall in H. apply H. apply all_bytes_in. exact Hv. Qed.
Lemma xor_def a b : xor a b = Z.lxor a b.
Proof. reflexivity. Qed.
Lemma entry_sound n g d table : forallb (entry_ok n g d table) all_bytes = true ->
  forall v, byte v -> 0 <= table v < 2 ^ d /\ cong g (v * 2 ^ d) (table v).
Proof.
  intros H v Hv. pose proof (all_bytes_forall _ H v Hv) as E. clear H. unfold entry_ok in E. apply andb_prop in E. destruct E as [E E3].
  apply andb_prop in E. destruct E as [E E2]. apply Z.eqb_eq in E. apply Z.leb_le in E2. apply Z.ltb_lt in E3. split; [split; [exact E2|exact E3]|].
  revert E. generalize (quotient (v * 2 ^ d) g d). intros q E. exists n, q. rewrite xor_def. symmetry. exact E.
Qed.

(** ** CRC-64 *)
Definition table64 (v : Z) : Z := at_ CRC64_TABLE v.
Lemma table64_ok : forallb (entry_ok 8 0x142f0e1eba9ea3693 64 table64) all_bytes = true.
Proof. vm_compute. reflexivity. Qed.
Lemma updatec64_eq r x : 0 <= r < 2 ^ 64 -> byte x -> crc64_updatec r x = Z.lxor ((r * 256) mod 2 ^ 64) (table64 (Z.lxor (r / 2 ^ 56) x)).
Proof.
  intros Hr Hx. unfold crc64_updatec, u64, table64. rewrite Z.shiftl_mul_pow2, Z.shiftr_div_pow2 by lia. do 2 f_equal.
  change 255 with (Z.ones 8). rewrite Z.land_ones by lia. apply Z.mod_small. apply lxor_range; [lia| |exact Hx].
  split; [apply Z.div_pos; lia|apply Z.div_lt_upper_bound; lia].
Qed.
Lemma crc64_steps m r : 0 <= r < 2 ^ 64 -> Forall byte m ->
  0 <= crc64_update r m < 2 ^ 64 /\ cong 0x142f0e1eba9ea3693 (Z.lxor (r * 256 ^ len m) (number m * 2 ^ 64)) (crc64_update r m).
Proof.
  intros Hr Hm. apply (steps_cong 0x142f0e1eba9ea3693 56 table64 crc64_updatec (entry_sound _ _ _ _ table64_ok) updatec64_eq m r r Hr Hm). apply cong_refl.
Qed.
Lemma crc64_ok m : Forall byte m -> CRC64 m (crc64_hash m).
Proof.
  intros Hm. destruct (crc64_steps m 0 ltac:(lia) Hm) as (R & C). rewrite Z.mul_0_l, Z.lxor_0_l in C. split; [exact R|exact C].
Qed.
Lemma CRC64_unique m x y : CRC64 m x -> CRC64 m y -> x = y.
Proof. apply pmod_unique; lia. Qed.

(** ** CRC-32: bits in the opposite order *)
Fixpoint flip (n : nat) (x : Z) : Z := match n with O => 0 | S m => (if Z.testbit x 0 then 1 else 0) * 2 ^ Z.of_nat m + flip m (x / 2) end.
Lemma flip_range n : forall x, 0 <= flip n x < 2 ^ Z.of_nat n.
Proof.
  induction n as [|n IH]; intros x; cbn [flip]; [lia|]. specialize (IH (x / 2)). rewrite Nat2Z.inj_succ, Z.pow_succ_r by lia. destruct (Z.testbit x 0); lia.
Qed.
Lemma flip_bits n : forall x i, 0 <= i < Z.of_nat n -> Z.testbit (flip n x) i = Z.testbit x (Z.of_nat n - 1 - i).
Proof.
  induction n as [|n IH]; intros x i Hi; [lia|]. cbn [flip]. rewrite <- lxor_add by (apply flip_range || lia). rewrite Z.lxor_spec.
  destruct (Z.eq_dec i (Z.of_nat n)) as [->|Ne].
  - rewrite Z.mul_pow2_bits, Z.sub_diag by lia. rewrite (bits_word (Z.of_nat n) (flip n _)) by (apply flip_range || lia). rewrite xorb_false_r.
    replace (Z.of_nat (S n) - 1 - Z.of_nat n) with 0 by lia. destruct (Z.testbit x 0); reflexivity.
  - rewrite Z.mul_pow2_bits_low, xorb_false_l, IH by lia. change (x / 2) with (x / 2 ^ 1). rewrite Z.div_pow2_bits by lia. f_equal. lia.
Qed.
Lemma flip_high n x i : Z.of_nat n <= i -> Z.testbit (flip n x) i = false.
Proof. intros H. apply (bits_word (Z.of_nat n)); [apply flip_range|exact H]. Qed.
Lemma flip_reversed n x : reversed (Z.of_nat n) x (flip n x).
Proof. split; [apply flip_range|]. apply flip_bits. Qed.
Lemma flip_flip n x : 0 <= x < 2 ^ Z.of_nat n -> flip n (flip n x) = x.
Proof.
  intros H. apply Z.bits_inj'. intros i Hi. destruct (Z_lt_le_dec i (Z.of_nat n)) as [L|L].
  - rewrite !flip_bits by lia. f_equal. lia.
  - rewrite flip_high, (bits_word (Z.of_nat n) x) by lia. reflexivity.
Qed.
Lemma flip_xor n x y : flip n (Z.lxor x y) = Z.lxor (flip n x) (flip n y).
Proof.
  apply Z.bits_inj'. intros i Hi. rewrite Z.lxor_spec. destruct (Z_lt_le_dec i (Z.of_nat n)) as [L|L].
  - rewrite !flip_bits, Z.lxor_spec by lia. reflexivity.
  - rewrite !flip_high by lia. reflexivity.
Qed.
Lemma flip_shift r : 0 <= r < 2 ^ 32 -> flip 32 (Z.shiftr r 8) = (flip 32 r * 256) mod 2 ^ 32.
Proof.
  intros Hr. apply Z.bits_inj'. intros i Hi. change 256 with (2 ^ 8). destruct (Z_lt_le_dec i 32) as [L|L].
  - rewrite Z.mod_pow2_bits_low by lia. rewrite (flip_bits 32) by lia. rewrite Z.shiftr_spec by lia. rewrite Z.mul_pow2_bits by lia.
    destruct (Z_lt_le_dec i 8) as [L8|L8].
    + rewrite (Z.testbit_neg_r _ (i - 8)) by lia. apply (bits_word 32); [exact Hr|lia].
    + rewrite (flip_bits 32) by lia. f_equal. lia.
  - rewrite Z.mod_pow2_bits_high by lia. apply (flip_high 32). lia.
Qed.
Lemma flip_low r x : 0 <= r < 2 ^ 32 -> byte x -> flip 8 (Z.land (Z.lxor r x) 255) = Z.lxor (flip 32 r / 2 ^ 24) (flip 8 x).
Proof.
  intros Hr Hx. apply Z.bits_inj'. intros i Hi. rewrite Z.lxor_spec. destruct (Z_lt_le_dec i 8) as [L|L].
  - rewrite !(flip_bits 8), Z.div_pow2_bits, (flip_bits 32) by lia. change 255 with (Z.ones 8). rewrite Z.land_spec, Z.ones_spec_low by lia.
    rewrite andb_true_r, Z.lxor_spec. f_equal. f_equal. lia.
  - rewrite !(flip_high 8) by lia. rewrite Z.div_pow2_bits, (flip_high 32) by lia. reflexivity.
Qed.
Definition table32 (v : Z) : Z := flip 32 (at_ CRC32_TABLE (flip 8 v)).
Lemma table32_ok : forallb (entry_ok 8 0x104c11db7 32 table32) all_bytes = true.
Proof. vm_compute. reflexivity. Qed.
Definition step32 (r x : Z) : Z := Z.lxor ((r * 256) mod 2 ^ 32) (table32 (Z.lxor (r / 2 ^ 24) x)).
Lemma updatec32_eq r x : 0 <= r < 2 ^ 32 -> byte x -> flip 32 (crc32_updatec r x) = step32 (flip 32 r) (flip 8 x).
Proof.
  intros Hr Hx. unfold crc32_updatec, step32, table32. rewrite flip_xor, flip_shift by exact Hr. f_equal. f_equal. f_equal.
  rewrite <- flip_low by assumption. rewrite (flip_flip 8); [reflexivity|]. change 255 with (Z.ones 8). rewrite Z.land_ones by lia. apply Z.mod_pos_bound. lia.
Qed.
Definition entry32_small (v : Z) : bool := (0 <=? at_ CRC32_TABLE v) && (at_ CRC32_TABLE v <? 2 ^ 32).
Lemma entries32_small : forallb entry32_small all_bytes = true.
Proof. vm_compute. reflexivity. Qed.
Lemma land255_byte x : byte (Z.land x 255).
Proof. change 255 with (Z.ones 8). rewrite Z.land_ones by lia. apply Z.mod_pos_bound. lia. Qed.
Lemma updatec32_range r x : 0 <= r < 2 ^ 32 -> 0 <= crc32_updatec r x < 2 ^ 32.
Proof.
  intros Hr. unfold crc32_updatec. apply lxor_range; [lia| |].
  - rewrite Z.shiftr_div_pow2 by lia. split; [apply Z.div_pos; lia|]. apply Z.div_lt_upper_bound; lia.
  - pose proof (all_bytes_forall _ entries32_small _ (land255_byte (Z.lxor r x))) as E. unfold entry32_small in E. lia.
Qed.
Lemma update32_range m : forall r, 0 <= r < 2 ^ 32 -> 0 <= crc32_update r m < 2 ^ 32.
Proof. unfold crc32_update. induction m as [|x t IH]; intros r Hr; cbn [fold_left]; [exact Hr|]. apply IH, updatec32_range, Hr. Qed.
Lemma update32_eq m : forall r, 0 <= r < 2 ^ 32 -> Forall byte m -> flip 32 (crc32_update r m) = fold_left step32 (map (flip 8) m) (flip 32 r).
Proof.
  unfold crc32_update. induction m as [|x t IH]; intros r Hr Hm; cbn [fold_left map]; [reflexivity|]. apply Forall_cons_iff in Hm. destruct Hm as [Hx Ht].
  rewrite IH by (apply updatec32_range, Hr || exact Ht). rewrite updatec32_eq by assumption. reflexivity.
Qed.
Lemma crc32_ok m : Forall byte m -> CRC32 m (crc32_hash m).
Proof.
  intros Hm. unfold crc32_hash. change (not32 0) with (2 ^ 32 - 1). fold (crc32_update (2 ^ 32 - 1) m).
  pose proof (update32_range m (2 ^ 32 - 1) ltac:(lia)) as R. set (r := crc32_update (2 ^ 32 - 1) m) in *.
  exists (map (flip 8) m), (flip 32 r). split; [apply map_length|]. split.
  { intros i Hi. change 0 with (flip 8 0) at 2. rewrite map_nth. apply (flip_reversed 8). }
  assert (Hf : Forall byte (map (flip 8) m)) by (apply Forall_map, Forall_forall; intros x _; apply (flip_range 8)).
  destruct (steps_cong 0x104c11db7 24 table32 step32 (entry_sound _ _ _ _ table32_ok) (fun _ _ _ _ => eq_refl) (map (flip 8) m) (flip 32 (2 ^ 32 - 1)) (flip 32 (2 ^ 32 - 1)) (flip_range 32 _) Hf (cong_refl _ _)) as (R2 & C).
  rewrite <- update32_eq in R2, C by (lia || exact Hm). fold r in R2, C.
  rewrite not32_eq by exact R. unfold neg. split; [|split; [|lia]].
  - split; [exact R2|]. rewrite Z.lxor_comm in C. unfold len in *. rewrite map_length in C. change (flip 32 (2 ^ 32 - 1)) with (2 ^ 32 - 1) in C. exact C.
  - replace (2 ^ 32 - 1 - (2 ^ 32 - 1 - r)) with r by lia. apply (flip_reversed 32).
Qed.
Lemma reversed_unique n r s s' : reversed n r s -> reversed n r s' -> s = s'.
Proof.
  intros (R & B) (R' & B'). apply Z.bits_inj'. intros i Hi. destruct (Z_lt_le_dec i n) as [L|L]; [rewrite B, B' by lia; reflexivity|].
  rewrite (bits_word n s), (bits_word n s') by lia. reflexivity.
Qed.
Lemma reversed_back n r s : 0 <= r < 2 ^ n -> reversed n r s -> reversed n s r.
Proof. intros Hr (R & B). split; [exact Hr|]. intros i Hi. rewrite B by lia. f_equal. lia. Qed.
Lemma CRC32_unique m x y : CRC32 m x -> CRC32 m y -> x = y.
Proof.
  intros (b & r & L & B & P & R & N) (b' & r' & L' & B' & P' & R' & N').
  assert (b = b').
  { apply nth_ext with (d := 0) (d' := 0); [congruence|]. intros i Hi. apply (reversed_unique 8 (nth i m 0)); [apply B|apply B']; lia. }
  subst b'. assert (r = r') by (eapply (pmod_unique _ 0x104c11db7 32); [lia|lia|exact P|exact P']). subst r'.
  apply reversed_back in R; [|unfold neg; lia]. apply reversed_back in R'; [|unfold neg; lia].
  pose proof (reversed_unique _ _ _ _ R R') as E. unfold neg in E. lia.
Qed.

(** ** One changed byte *)
Section One.
Context {S : Type} (D : S -> Prop) (step : S -> Z -> S).
Context (closed : forall r x, D r -> byte x -> D (step r x)).
Context (inj1 : forall r r' x, D r -> D r' -> byte x -> step r x = step r' x -> r = r').
Context (inj2 : forall r x y, D r -> byte x -> byte y -> step r x = step r y -> x = y).
Lemma fold_closed m : forall r, D r -> Forall byte m -> D (fold_left step m r).
Proof. induction m as [|x t IH]; intros r Hr Hm; cbn [fold_left]; [exact Hr|]. apply Forall_cons_iff in Hm. apply IH; [apply closed|]; tauto. Qed.
Lemma fold_inj m : forall r r', D r -> D r' -> Forall byte m -> fold_left step m r = fold_left step m r' -> r = r'.
Proof.
  induction m as [|x t IH]; intros r r' Hr Hr' Hm E; cbn [fold_left] in E; [exact E|]. apply Forall_cons_iff in Hm. destruct Hm as [Hx Ht].
  apply (inj1 r r' x); try assumption. apply IH; try assumption; apply closed; assumption.
Qed.
Lemma one_byte m m' r : D r -> Forall byte m -> Forall byte m' -> one_byte_apart m m' -> fold_left step m r <> fold_left step m' r.
Proof.
  intros Hr Hm Hm' (a & x & y & b & -> & -> & Ne) E. apply Forall_app in Hm, Hm'. destruct Hm as [Ha Hm], Hm' as [_ Hm'].
  apply Forall_cons_iff in Hm, Hm'. destruct Hm as [Hx Hb], Hm' as [Hy _]. rewrite !fold_left_app in E. cbn [fold_left] in E.
  pose proof (fold_closed a r Hr Ha) as Hs. apply fold_inj in E; try assumption; try (apply closed; assumption).
  apply Ne. exact (inj2 _ _ _ Hs Hx Hy E).
Qed.
End One.
(** The entry of a table is known from one of its bytes. *)
Definition find_entry (table : Z -> Z) (part : Z -> Z) (v : Z) : Z := match find (fun i => part (table i) =? v) all_bytes with Some i => i | None => 0 end.
Definition entry_known (table part : Z -> Z) (i : Z) : bool := find_entry table part (part (table i)) =? i.
Definition top32 (x : Z) : Z := x / 2 ^ 24.
Definition low64 (x : Z) : Z := x mod 256.
Lemma known32 : forallb (entry_known (at_ CRC32_TABLE) top32) all_bytes = true.
Proof. vm_compute. reflexivity. Qed.
Lemma known64 : forallb (entry_known (at_ CRC64_TABLE) low64) all_bytes = true.
Proof. vm_compute. reflexivity. Qed.
Lemma entry_inj table part i j : forallb (entry_known table part) all_bytes = true -> byte i -> byte j -> part (table i) = part (table j) -> i = j.
Proof.
  intros H Hi Hj E. pose proof (all_bytes_forall _ H i Hi) as A. pose proof (all_bytes_forall _ H j Hj) as B. unfold entry_known in A, B. rewrite E in A. lia.
Qed.
Lemma top_updatec32 r x : 0 <= r < 2 ^ 32 -> top32 (crc32_updatec r x) = top32 (at_ CRC32_TABLE (Z.land (Z.lxor r x) 255)).
Proof.
  intros Hr. unfold top32, crc32_updatec. apply Z.bits_inj'. intros i Hi. rewrite !Z.div_pow2_bits, Z.lxor_spec, Z.shiftr_spec by lia.
  rewrite (bits_word 32 r) by lia. apply xorb_false_l.
Qed.
Lemma low_bits x y c : Z.land (Z.lxor x c) 255 = Z.land (Z.lxor y c) 255 -> forall i, 0 <= i < 8 -> Z.testbit x i = Z.testbit y i.
Proof.
  intros E i Hi. apply (f_equal (fun z => Z.testbit z i)) in E. change 255 with (Z.ones 8) in E. rewrite !Z.land_spec, Z.ones_spec_low, !andb_true_r, !Z.lxor_spec in E by lia.
  destruct (Z.testbit x i), (Z.testbit y i), (Z.testbit c i); cbn in E; congruence.
Qed.
Lemma inj1_32 r r' x : 0 <= r < 2 ^ 32 -> 0 <= r' < 2 ^ 32 -> byte x -> crc32_updatec r x = crc32_updatec r' x -> r = r'.
Proof.
  intros Hr Hr' Hx E. assert (I : Z.land (Z.lxor r x) 255 = Z.land (Z.lxor r' x) 255).
  { apply (entry_inj _ _ _ _ known32); try apply land255_byte. rewrite <- !top_updatec32, E by assumption. reflexivity. }
  unfold crc32_updatec in E. rewrite I in E. apply (f_equal (fun z => Z.lxor z (at_ CRC32_TABLE (Z.land (Z.lxor r' x) 255)))) in E.
  rewrite !Z.lxor_assoc, !Z.lxor_nilpotent, !Z.lxor_0_r in E. apply Z.bits_inj'. intros i Hi. destruct (Z_lt_le_dec i 8) as [L|L]; [apply (low_bits r r' x I); lia|].
  apply (f_equal (fun z => Z.testbit z (i - 8))) in E. rewrite !Z.shiftr_spec in E by lia. replace (i - 8 + 8) with i in E by lia. exact E.
Qed.
Lemma byte_ext x y : byte x -> byte y -> (forall i, 0 <= i < 8 -> Z.testbit x i = Z.testbit y i) -> x = y.
Proof.
  intros Hx Hy H. apply Z.bits_inj'. intros i Hi. destruct (Z_lt_le_dec i 8) as [L|L]; [apply H; lia|].
  rewrite (bits_word 8 x), (bits_word 8 y) by (exact Hx || exact Hy || lia). reflexivity.
Qed.
Lemma inj2_32 r x y : 0 <= r < 2 ^ 32 -> byte x -> byte y -> crc32_updatec r x = crc32_updatec r y -> x = y.
Proof.
  intros Hr Hx Hy E. assert (I : Z.land (Z.lxor r x) 255 = Z.land (Z.lxor r y) 255).
  { apply (entry_inj _ _ _ _ known32); try apply land255_byte. rewrite <- !top_updatec32, E by assumption. reflexivity. }
  rewrite !(Z.lxor_comm r) in I. apply byte_ext; try assumption. apply (low_bits x y r I).
Qed.
Lemma low_updatec64 r x : low64 (crc64_updatec r x) = low64 (at_ CRC64_TABLE (Z.land (Z.lxor (Z.shiftr r 56) x) 255)).
Proof.
  unfold low64, crc64_updatec, u64. change 256 with (2 ^ 8). apply Z.bits_inj'. intros i Hi. destruct (Z_lt_le_dec i 8) as [L|L].
  - rewrite !Z.mod_pow2_bits_low, Z.lxor_spec by lia. rewrite Z.mod_pow2_bits_low, Z.shiftl_spec_low by lia. apply xorb_false_l.
  - rewrite !Z.mod_pow2_bits_high by lia. reflexivity.
Qed.
Lemma index64 r r' x x' : crc64_updatec r x = crc64_updatec r' x' -> Z.land (Z.lxor (Z.shiftr r 56) x) 255 = Z.land (Z.lxor (Z.shiftr r' 56) x') 255.
Proof. intros E. apply (entry_inj _ _ _ _ known64); try apply land255_byte. rewrite <- !low_updatec64, E. reflexivity. Qed.
Lemma inj1_64 r r' x : 0 <= r < 2 ^ 64 -> 0 <= r' < 2 ^ 64 -> byte x -> crc64_updatec r x = crc64_updatec r' x -> r = r'.
Proof.
  intros Hr Hr' Hx E. pose proof (index64 _ _ _ _ E) as I. unfold crc64_updatec in E. rewrite I in E.
  apply (f_equal (fun z => Z.lxor z (at_ CRC64_TABLE (Z.land (Z.lxor (Z.shiftr r' 56) x) 255)))) in E.
  rewrite !Z.lxor_assoc, !Z.lxor_nilpotent, !Z.lxor_0_r in E. apply Z.bits_inj'. intros i Hi. destruct (Z_lt_le_dec i 56) as [L|L].
  - apply (f_equal (fun z => Z.testbit z (i + 8))) in E. unfold u64 in E. rewrite !Z.mod_pow2_bits_low, !Z.shiftl_spec in E by lia. replace (i + 8 - 8) with i in E by lia. exact E.
  - destruct (Z_lt_le_dec i 64) as [L2|L2]; [|rewrite (bits_word 64 r), (bits_word 64 r') by lia; reflexivity].
    pose proof (low_bits _ _ _ I (i - 56) ltac:(lia)) as B. rewrite !Z.shiftr_spec in B by lia. replace (i - 56 + 56) with i in B by lia. exact B.
Qed.
Lemma inj2_64 r x y : 0 <= r < 2 ^ 64 -> byte x -> byte y -> crc64_updatec r x = crc64_updatec r y -> x = y.
Proof.
  intros Hr Hx Hy E. pose proof (index64 _ _ _ _ E) as I. rewrite !(Z.lxor_comm (Z.shiftr r 56)) in I. apply byte_ext; try assumption. apply (low_bits x y _ I).
Qed.
Lemma crc64_closed r x : 0 <= r < 2 ^ 64 -> byte x -> 0 <= crc64_updatec r x < 2 ^ 64.
Proof. intros Hr Hx. exact (step_range 0x142f0e1eba9ea3693 56 table64 crc64_updatec (entry_sound _ _ _ _ table64_ok) updatec64_eq r x Hr Hx). Qed.
Lemma crc32_one m m' : Forall byte m -> Forall byte m' -> one_byte_apart m m' -> crc32_hash m <> crc32_hash m'.
Proof.
  intros Hm Hm' H E. unfold crc32_hash in E. change (not32 0) with (2 ^ 32 - 1) in E.
  pose proof (update32_range m (2 ^ 32 - 1) ltac:(lia)) as R. pose proof (update32_range m' (2 ^ 32 - 1) ltac:(lia)) as R'. unfold crc32_update in R, R'.
  rewrite !not32_eq in E by (exact R || exact R'). unfold neg in E.
  apply (one_byte (fun r => 0 <= r < 2 ^ 32) crc32_updatec (fun r x Hr _ => updatec32_range r x Hr) inj1_32 inj2_32 m m' (2 ^ 32 - 1)); try assumption; lia.
Qed.
Lemma crc64_one m m' : Forall byte m -> Forall byte m' -> one_byte_apart m m' -> crc64_hash m <> crc64_hash m'.
Proof. intros Hm Hm' H. apply (one_byte (fun r => 0 <= r < 2 ^ 64) crc64_updatec crc64_closed inj1_64 inj2_64 m m' 0); try assumption. lia. Qed.

(** ** Adler-32 *)
Definition adler_state (s : Z * Z) : Prop := 0 <= fst s < 65521 /\ 0 <= snd s < 65521.
Lemma adler_updatec_eq s x : adler_state s -> byte x ->
  adler_updatec s x = ((fst s + x) mod 65521, (snd s + (fst s + x) mod 65521) mod 65521).
Proof.
  intros (Ha & Hb) Hx. unfold byte in Hx. unfold adler_updatec, add32, u32. rewrite (Z.mod_small (fst s + x)) by lia.
  pose proof (Z.mod_pos_bound (fst s + x) 65521 ltac:(lia)). rewrite (Z.mod_small (snd s + _)) by lia. reflexivity.
Qed.
Lemma adler_closed s x : adler_state s -> byte x -> adler_state (adler_updatec s x).
Proof. intros H Hx. rewrite adler_updatec_eq by assumption. split; cbn [fst snd]; apply Z.mod_pos_bound; lia. Qed.
Lemma mod_cancel a b c : 0 <= a < 65521 -> 0 <= b < 65521 -> (a + c) mod 65521 = (b + c) mod 65521 -> a = b.
Proof.
  intros Ha Hb E. pose proof (Z.div_mod (a + c) 65521 ltac:(lia)). pose proof (Z.div_mod (b + c) 65521 ltac:(lia)). lia.
Qed.
Lemma adler_inj1 s s' x : adler_state s -> adler_state s' -> byte x -> adler_updatec s x = adler_updatec s' x -> s = s'.
Proof.
  intros H H' Hx E. rewrite !adler_updatec_eq in E by assumption. injection E as E1 E2. rewrite E1 in E2. destruct s as [a b], s' as [a' b'].
  destruct H as [Ha Hb], H' as [Ha' Hb']. cbn [fst snd] in *. apply mod_cancel in E1; [|assumption..]. apply mod_cancel in E2; [|assumption..]. congruence.
Qed.
Lemma adler_inj2 s x y : adler_state s -> byte x -> byte y -> adler_updatec s x = adler_updatec s y -> x = y.
Proof.
  intros H Hx Hy E. rewrite !adler_updatec_eq in E by assumption. injection E as E1 _. unfold byte in *. rewrite !(Z.add_comm (fst s)) in E1. apply mod_cancel in E1; lia.
Qed.
Lemma adler_final_eq s : adler_state s -> adler_final s = snd s * 65536 + fst s.
Proof.
  intros (Ha & Hb). unfold adler_final. rewrite shl32_small by lia. rewrite (lor_add 16 (snd s) (fst s)); lia.
Qed.
Lemma adler_fold m : forall a b, Forall byte m ->
  fold_left adler_updatec m (a mod 65521, b mod 65521) =
  ((a + sum m) mod 65521, (b + sum (map (fun i => a + sum (firstn i m)) (seq 1 (length m)))) mod 65521).
Proof.
  induction m as [|x t IH]; intros a b Hm; cbn [fold_left].
  - cbn [sum fold_right seq map length]. rewrite !Z.add_0_r. reflexivity.
  - apply Forall_cons_iff in Hm. destruct Hm as [Hx Ht].
    rewrite adler_updatec_eq by (assumption || (split; cbn [fst snd]; apply Z.mod_pos_bound; lia)). cbn [fst snd].
    rewrite (Zplus_mod_idemp_l a x), Zplus_mod_idemp_l, (Zplus_mod_idemp_r (a + x) b), IH by exact Ht.
    f_equal; [f_equal; unfold sum; cbn [fold_right]; lia|]. f_equal. cbn [length seq map]. rewrite <- (seq_shift (length t) 1), map_map.
    unfold sum at 3. cbn [fold_right firstn]. change (fold_right Z.add 0 ?l) with (sum l). unfold sum at 3. cbn [fold_right].
    rewrite !Z.add_0_r, <- !Z.add_assoc. do 3 f_equal. f_equal. apply map_ext. intros i. cbn [firstn]. unfold sum at 2. cbn [fold_right]. fold (sum (firstn i t)). lia.
Qed.
Lemma adler_ok m : Forall byte m -> adler_hash m = ADLER32 m.
Proof.
  intros Hm. unfold adler_hash, ADLER32. rewrite (adler_fold m 1 0 Hm : fold_left adler_updatec m (1, 0) = _).
  rewrite adler_final_eq by (split; cbn [fst snd]; apply Z.mod_pos_bound; lia). cbn [fst snd]. reflexivity.
Qed.
Lemma adler_one m m' : Forall byte m -> Forall byte m' -> one_byte_apart m m' -> adler_hash m <> adler_hash m'.
Proof.
  intros Hm Hm' H E. unfold adler_hash in E.
  assert (S0 : adler_state (1, 0)) by (split; cbn [fst snd]; lia).
  pose proof (fold_closed adler_state adler_updatec adler_closed m (1, 0) S0 Hm) as R. pose proof (fold_closed adler_state adler_updatec adler_closed m' (1, 0) S0 Hm') as R'.
  rewrite !adler_final_eq in E by assumption.
  apply (one_byte adler_state adler_updatec adler_closed adler_inj1 adler_inj2 m m' (1, 0) S0 Hm Hm' H).
  destruct (fold_left adler_updatec m (1, 0)) as [a b], (fold_left adler_updatec m' (1, 0)) as [a' b']. destruct R as [R1 R2], R' as [R1' R2']. cbn [fst snd] in *. f_equal; lia.
Qed.

(** ** FNV-1a *)
Lemma odd_mul_inj w k k' a b : 0 < w -> (k * k') mod w = 1 mod w -> 0 <= a < w -> 0 <= b < w -> (a * k) mod w = (b * k) mod w -> a = b.
Proof.
  intros Hw Hk Ha Hb E. apply (f_equal (fun z => (z * k') mod w)) in E. rewrite !Zmult_mod_idemp_l, <- !Z.mul_assoc in E.
  rewrite <- (Zmult_mod_idemp_r (k * k') a), <- (Zmult_mod_idemp_r (k * k') b), Hk, !Zmult_mod_idemp_r, !Z.mul_1_r, !Z.mod_small in E by lia. exact E.
Qed.
Lemma lxor_inj_l a b c : Z.lxor a c = Z.lxor b c -> a = b.
Proof. intros E. apply (f_equal (fun z => Z.lxor z c)) in E. rewrite !Z.lxor_assoc, Z.lxor_nilpotent, !Z.lxor_0_r in E. exact E. Qed.
Lemma byte_word n x : 8 <= n -> byte x -> 0 <= x < 2 ^ n.
Proof. intros Hn Hx. unfold byte in Hx. assert (2 ^ 8 <= 2 ^ n) by (apply Z.pow_le_mono_r; lia). lia. Qed.
Lemma fnv32_one m m' : Forall byte m -> Forall byte m' -> one_byte_apart m m' -> fnv32_hash m <> fnv32_hash m'.
Proof.
  intros Hm Hm' H. unfold fnv32_hash. apply (one_byte (fun r => 0 <= r < 2 ^ 32)); try assumption.
  - intros r x Hr Hx. unfold fnv32_updatec, u32. apply Z.mod_pos_bound. lia.
  - intros r r' x Hr Hr' Hx E. unfold fnv32_updatec, u32 in E. apply (odd_mul_inj _ _ 899433627) in E; [|lia|reflexivity|apply lxor_range; [lia|lia|apply byte_word; [lia|exact Hx]]..].
    apply lxor_inj_l in E. exact E.
  - intros r x y Hr Hx Hy E. unfold fnv32_updatec, u32 in E.
    apply (odd_mul_inj _ _ 899433627) in E; [|lia|reflexivity|apply lxor_range; [lia|lia|apply byte_word; [lia|exact Hx]]|apply lxor_range; [lia|lia|apply byte_word; [lia|exact Hy]]].
    rewrite !(Z.lxor_comm r) in E. apply lxor_inj_l in E. exact E.
  - lia.
Qed.
Lemma fnv64_one m m' : Forall byte m -> Forall byte m' -> one_byte_apart m m' -> fnv64_hash m <> fnv64_hash m'.
Proof.
  intros Hm Hm' H. unfold fnv64_hash. apply (one_byte (fun r => 0 <= r < 2 ^ 64)); try assumption.
  - intros r x Hr Hx. unfold fnv64_updatec, u64. apply Z.mod_pos_bound. lia.
  - intros r r' x Hr Hr' Hx E. unfold fnv64_updatec, u64 in E. apply (odd_mul_inj _ _ 14886173955864302971) in E; [|lia|reflexivity|apply lxor_range; [lia|lia|apply byte_word; [lia|exact Hx]]..].
    apply lxor_inj_l in E. exact E.
  - intros r x y Hr Hx Hy E. unfold fnv64_updatec, u64 in E.
    apply (odd_mul_inj _ _ 14886173955864302971) in E; [|lia|reflexivity|apply lxor_range; [lia|lia|apply byte_word; [lia|exact Hx]]|apply lxor_range; [lia|lia|apply byte_word; [lia|exact Hy]]].
    rewrite !(Z.lxor_comm r) in E. apply lxor_inj_l in E. exact E.
  - lia.
Qed.
