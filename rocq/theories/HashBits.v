(** Words as bit strings: the shifts, rotations and boolean functions of the model are those of the specification. *)
From Coq Require Import ZArith Bool List Lia ZifyBool.
From Verif Require Import Mach HashModel HashSpec.
Import ListNotations.
Open Scope Z_scope.

Definition word (x : Z) : Prop := 0 <= x < 2 ^ 32.
Lemma word_bits n x : 0 <= n -> 0 <= x -> (forall i, n <= i -> Z.testbit x i = false) -> 0 <= x < 2 ^ n.
Proof.
  intros Hn Hx Hb. split; [exact Hx|].
  destruct (Z.eq_dec x 0) as [->|Nz]; [apply Z.pow_pos_nonneg; lia|].
  destruct (Z_lt_le_dec x (2 ^ n)) as [L|L]; [exact L|exfalso].
  assert (Hl : n <= Z.log2 x) by (apply Z.log2_le_pow2; lia).
  specialize (Hb _ Hl). rewrite Z.bit_log2 in Hb; [discriminate|lia].
Qed.
Lemma bits_word n x i : 0 <= x < 2 ^ n -> n <= i -> Z.testbit x i = false.
Proof.
  intros [H0 H] Hi. destruct (Z.eq_dec x 0) as [->|Nz]; [apply Z.bits_0|].
  apply Z.bits_above_log2; [exact H0|]. apply Z.log2_lt_pow2 in H; lia.
Qed.
Lemma lxor_range n x y : 0 <= n -> 0 <= x < 2 ^ n -> 0 <= y < 2 ^ n -> 0 <= Z.lxor x y < 2 ^ n.
Proof.
  intros Hn Hx Hy. apply word_bits; [exact Hn|apply Z.lxor_nonneg; lia|].
  intros i Hi. rewrite Z.lxor_spec, (bits_word n x), (bits_word n y) by assumption. reflexivity.
Qed.
Lemma lor_range n x y : 0 <= n -> 0 <= x < 2 ^ n -> 0 <= y < 2 ^ n -> 0 <= Z.lor x y < 2 ^ n.
Proof.
  intros Hn Hx Hy. apply word_bits; [exact Hn|apply Z.lor_nonneg; lia|].
  intros i Hi. rewrite Z.lor_spec, (bits_word n x), (bits_word n y) by assumption. reflexivity.
Qed.
Lemma land_range n x y : 0 <= n -> 0 <= x < 2 ^ n -> 0 <= y -> 0 <= Z.land x y < 2 ^ n.
Proof.
  intros Hn Hx Hy. apply word_bits; [exact Hn|apply Z.land_nonneg; lia|].
  intros i Hi. rewrite Z.land_spec, (bits_word n x) by assumption. reflexivity.
Qed.
Lemma word_mod x : word (x mod 2 ^ 32).
Proof. apply Z.mod_pos_bound. reflexivity. Qed.
Lemma word_add32 x y : word (add32 x y).
Proof. apply word_mod. Qed.
Lemma word_lxor x y : word x -> word y -> word (Z.lxor x y).
Proof. apply lxor_range; lia. Qed.
Lemma word_lor x y : word x -> word y -> word (Z.lor x y).
Proof. apply lor_range; lia. Qed.
Lemma word_land x y : word x -> word y -> word (Z.land x y).
Proof. intros Hx Hy. apply land_range; [lia|exact Hx|apply Hy]. Qed.

(** An inclusive or of parts that do not meet is a sum. *)
Lemma lor_add n a b : 0 <= n -> 0 <= b < 2 ^ n -> Z.lor (a * 2 ^ n) b = a * 2 ^ n + b.
Proof.
  intros Hn Hb. apply Z.bits_inj'. intros i Hi. rewrite Z.lor_spec.
  rewrite <- (Z.shiftl_mul_pow2 a n) by exact Hn.
  assert (Hlow : Z.land (Z.shiftl a n) b = 0).
  { apply Z.bits_inj'. intros j Hj. rewrite Z.land_spec, Z.bits_0.
    destruct (Z_lt_le_dec j n) as [L|L].
    - rewrite Z.shiftl_spec_low by lia. reflexivity.
    - rewrite (bits_word n b j) by lia. apply andb_false_r. }
  rewrite Z.add_nocarry_lxor by exact Hlow. rewrite Z.lxor_spec.
  pose proof (f_equal (fun v => Z.testbit v i) Hlow) as E. cbn beta in E. rewrite Z.land_spec, Z.bits_0 in E.
  destruct (Z.testbit (Z.shiftl a n) i), (Z.testbit b i); try reflexivity. discriminate.
Qed.
Lemma rot_parts n x : 0 <= n <= 32 -> word x -> (x * 2 ^ n) mod 2 ^ 32 = (x mod 2 ^ (32 - n)) * 2 ^ n.
Proof.
  intros Hn Hx. replace (2 ^ 32) with (2 ^ (32 - n) * 2 ^ n) by (rewrite <- Z.pow_add_r by lia; f_equal; lia).
  apply Z.mul_mod_distr_r; apply Z.pow_nonzero; lia.
Qed.
Lemma div_range n x : 0 <= n <= 32 -> word x -> 0 <= x / 2 ^ (32 - n) < 2 ^ n.
Proof.
  intros Hn Hx. unfold word in Hx.
  assert (0 < 2 ^ (32 - n)) by (apply Z.pow_pos_nonneg; lia).
  split; [apply Z.div_pos; lia|]. apply Z.div_lt_upper_bound; [lia|].
  rewrite <- Z.pow_add_r by lia. replace (32 - n + n) with 32 by lia. lia.
Qed.
Lemma rotl_eq n x : 0 <= n <= 32 -> word x -> rotl x n = ROTL n x.
Proof.
  intros Hn Hx. unfold rotl, ROTL, shl32, u32. rewrite Z.shiftl_mul_pow2, Z.shiftr_div_pow2 by lia.
  rewrite rot_parts by assumption. apply lor_add; [lia|apply div_range; assumption].
Qed.
Lemma rotr_eq n x : 0 <= n <= 32 -> word x -> rotr x n = ROTR n x.
Proof.
  intros Hn Hx. unfold ROTR. rewrite <- rotl_eq by (assumption || lia). unfold rotl, rotr.
  rewrite Z.lor_comm. replace (32 - (32 - n)) with n by lia. reflexivity.
Qed.
Lemma word_ROTL n x : 0 <= n <= 32 -> word x -> word (ROTL n x).
Proof.
  intros Hn Hx. rewrite <- rotl_eq by assumption. unfold rotl. apply word_lor; [apply word_mod|].
  rewrite Z.shiftr_div_pow2 by lia. pose proof (div_range n x Hn Hx). unfold word.
  assert (2 ^ n <= 2 ^ 32) by (apply Z.pow_le_mono_r; lia). lia.
Qed.
Lemma word_ROTR n x : 0 <= n <= 32 -> word x -> word (ROTR n x).
Proof. intros Hn Hx. apply word_ROTL; [lia|exact Hx]. Qed.
Lemma not32_eq x : word x -> not32 x = neg x.
Proof.
  intros Hx. unfold not32, u32, neg, word in *. symmetry. apply Z.mod_unique with (q := -1); [lia|].
  unfold Z.lnot. lia.
Qed.
Lemma word_neg x : word x -> word (neg x).
Proof. unfold word, neg. lia. Qed.
Lemma neg_bit x i : word x -> 0 <= i -> Z.testbit (neg x) i = (i <? 32) && negb (Z.testbit x i).
Proof.
  intros Hx Hi. rewrite <- not32_eq by exact Hx. unfold not32, u32.
  destruct (Z.ltb_spec i 32) as [L|L].
  - rewrite Z.mod_pow2_bits_low by lia. rewrite Z.lnot_spec by lia. reflexivity.
  - rewrite Z.mod_pow2_bits_high by lia. reflexivity.
Qed.
Ltac bitwise H1 H2 H3 :=
  let i := fresh "i" in let Hi := fresh "Hi" in
  apply Z.bits_inj'; intros i Hi; repeat rewrite ?Z.lxor_spec, ?Z.lor_spec, ?Z.land_spec, ?neg_bit by assumption;
  destruct (Z.ltb_spec i 32);
  [|rewrite (bits_word 32 _ i H1), (bits_word 32 _ i H2), (bits_word 32 _ i H3) by lia];
  repeat match goal with |- context [Z.testbit ?a i] => destruct (Z.testbit a i) end; reflexivity.
Lemma ch_eq x y z : word x -> ch x y z = Ch x y z.
Proof. intros Hx. unfold ch, Ch, xor. rewrite not32_eq by exact Hx. reflexivity. Qed.
Lemma ch1_eq x y z : word x -> word y -> word z -> Z.lxor (Z.land x (Z.lxor y z)) z = Ch x y z.
Proof. intros Hx Hy Hz. unfold Ch, xor. bitwise Hx Hy Hz. Qed.
Lemma maj1_eq x y z : word x -> word y -> word z -> Z.lor (Z.land (Z.lor x y) z) (Z.land x y) = Maj x y z.
Proof. intros Hx Hy Hz. unfold Maj, xor. bitwise Hx Hy Hz. Qed.
Lemma f5_eq x y z : word x -> word y -> word z -> Z.lxor z (Z.land x (Z.lxor y z)) = Z.lor (Z.land x y) (Z.land (neg x) z).
Proof. intros Hx Hy Hz. bitwise Hx Hy Hz. Qed.
Lemma g5_eq x y z : word x -> word y -> word z -> Z.lxor y (Z.land z (Z.lxor x y)) = Z.lor (Z.land x z) (Z.land y (neg z)).
Proof. intros Hx Hy Hz. bitwise Hx Hy Hz. Qed.
Lemma word_Ch x y z : word x -> word y -> word z -> word (Ch x y z).
Proof. intros. unfold Ch, xor. apply word_lxor; apply word_land; try assumption. apply word_neg; assumption. Qed.
Lemma word_Maj x y z : word x -> word y -> word z -> word (Maj x y z).
Proof. intros. unfold Maj, xor. repeat apply word_lxor; apply word_land; assumption. Qed.

(** Bytes. *)
Lemma land_255 x : Z.land x 255 = x mod 256.
Proof. change 255 with (Z.ones 8). rewrite Z.land_ones by lia. reflexivity. Qed.
Lemma byte_nth l i : Forall byte l -> byte (nth i l 0).
Proof.
  intros H. destruct (Nat.lt_ge_cases i (length l)) as [L|L].
  - rewrite Forall_forall in H. apply H. apply nth_In. exact L.
  - rewrite nth_overflow by exact L. unfold byte. lia.
Qed.
Lemma be_out_eq x : word x -> be_out x = bytes_be 4 x.
Proof.
  intros Hx. unfold be_out, bytes_be. cbn [bytes_le rev app].
  rewrite !land_255, !Z.shiftr_div_pow2 by lia. rewrite !Z.div_div by lia. reflexivity.
Qed.
Lemma le_out_eq x : le_out x = bytes_le 4 x.
Proof. unfold le_out. cbn [bytes_le]. rewrite !Z.div_div by lia. reflexivity. Qed.
Lemma bytes_le_length n : forall x, length (bytes_le n x) = n.
Proof. induction n as [|n IH]; intros x; cbn [bytes_le length]; [reflexivity|]. rewrite IH. reflexivity. Qed.
Lemma bytes_be_length n x : length (bytes_be n x) = n.
Proof. unfold bytes_be. rewrite rev_length. apply bytes_le_length. Qed.
Lemma bytes_le_byte n : forall x, Forall byte (bytes_le n x).
Proof.
  induction n as [|n IH]; intros x; cbn [bytes_le]; constructor; [|apply IH].
  apply Z.mod_pos_bound. reflexivity.
Qed.
Lemma bytes_be_byte n x : Forall byte (bytes_be n x).
Proof. apply Forall_rev. apply bytes_le_byte. Qed.
Lemma word_word_be M t : Forall byte M -> word (word_be M t).
Proof.
  intros H. unfold word_be, word.
  pose proof (byte_nth M (4 * t) H). pose proof (byte_nth M (4 * t + 1) H).
  pose proof (byte_nth M (4 * t + 2) H). pose proof (byte_nth M (4 * t + 3) H). unfold byte in *. lia.
Qed.
Lemma word_word_le M t : Forall byte M -> word (word_le M t).
Proof.
  intros H. unfold word_le, word.
  pose proof (byte_nth M (4 * t) H). pose proof (byte_nth M (4 * t + 1) H).
  pose proof (byte_nth M (4 * t + 2) H). pose proof (byte_nth M (4 * t + 3) H). unfold byte in *. lia.
Qed.
Lemma at_nth (l : list Z) (n : nat) (i : Z) : i = Z.of_nat n -> at_ l i = nth n l 0.
Proof. intros ->. unfold at_. rewrite Nat2Z.id. reflexivity. Qed.
Lemma shl32_small x n : 0 <= n -> 0 <= x * 2 ^ n < 2 ^ 32 -> shl32 x n = x * 2 ^ n.
Proof. intros Hn H. unfold shl32, u32. rewrite Z.shiftl_mul_pow2 by exact Hn. apply Z.mod_small. exact H. Qed.
Lemma load_be_eq M (t : nat) : Forall byte M -> load_be M (Z.of_nat t) = word_be M t.
Proof.
  intros H. unfold load_be, word_be.
  rewrite (at_nth M (4 * t)), (at_nth M (4 * t + 1)), (at_nth M (4 * t + 2)), (at_nth M (4 * t + 3)) by lia.
  pose proof (byte_nth M (4 * t) H) as B0. pose proof (byte_nth M (4 * t + 1) H) as B1.
  pose proof (byte_nth M (4 * t + 2) H) as B2. pose proof (byte_nth M (4 * t + 3) H) as B3.
  set (a := nth (4 * t) M 0) in *. set (b := nth (4 * t + 1) M 0) in *.
  set (c := nth (4 * t + 2) M 0) in *. set (d := nth (4 * t + 3) M 0) in *. clearbody a b c d. unfold byte in *.
  rewrite !shl32_small by lia.
  rewrite (lor_add 24 a (b * 2 ^ 16)) by lia.
  replace (a * 2 ^ 24 + b * 2 ^ 16) with ((a * 2 ^ 8 + b) * 2 ^ 16) by ring.
  rewrite (lor_add 16 _ (c * 2 ^ 8)) by lia.
  replace ((a * 2 ^ 8 + b) * 2 ^ 16 + c * 2 ^ 8) with ((a * 2 ^ 16 + b * 2 ^ 8 + c) * 2 ^ 8) by ring.
  rewrite (lor_add 8 _ d) by lia. ring.
Qed.
Lemma load_le_eq M (t : nat) : load_le M (Z.of_nat t) = word_le M t.
Proof.
  unfold load_le, word_le.
  rewrite (at_nth M (4 * t)), (at_nth M (4 * t + 1)), (at_nth M (4 * t + 2)), (at_nth M (4 * t + 3)) by lia. ring.
Qed.
(** The exchange of the bytes of a little-endian word. *)
Lemma swap_word M t : Forall byte M ->
  Z.lor (Z.land (rotl (word_le M t) 24) 4278255360) (Z.land (rotl (word_le M t) 8) 16711935) = word_be M t.
Proof.
  intros H. unfold word_be.
  rewrite !rotl_eq by (lia || apply word_word_le; assumption). unfold ROTL, word_le.
  pose proof (byte_nth M (4 * t) H) as B0. pose proof (byte_nth M (4 * t + 1) H) as B1.
  pose proof (byte_nth M (4 * t + 2) H) as B2. pose proof (byte_nth M (4 * t + 3) H) as B3.
  set (a := nth (4 * t) M 0) in *. set (b := nth (4 * t + 1) M 0) in *.
  set (c := nth (4 * t + 2) M 0) in *. set (d := nth (4 * t + 3) M 0) in *. clearbody a b c d. unfold byte in *.
  replace ((d * 2 ^ 24 + c * 2 ^ 16 + b * 2 ^ 8 + a) * 2 ^ 24) with (a * 2 ^ 24 + (d * 2 ^ 16 + c * 2 ^ 8 + b) * 2 ^ 32) by ring.
  replace ((d * 2 ^ 24 + c * 2 ^ 16 + b * 2 ^ 8 + a) * 2 ^ 8) with (c * 2 ^ 24 + b * 2 ^ 16 + a * 2 ^ 8 + d * 2 ^ 32) by ring.
  rewrite !Z.mod_add by lia. rewrite !Z.mod_small by lia.
  replace ((d * 2 ^ 24 + c * 2 ^ 16 + b * 2 ^ 8 + a) / 2 ^ (32 - 24)) with (d * 2 ^ 16 + c * 2 ^ 8 + b)
    by (apply Z.div_unique with (r := a); lia).
  replace ((d * 2 ^ 24 + c * 2 ^ 16 + b * 2 ^ 8 + a) / 2 ^ (32 - 8)) with d
    by (apply Z.div_unique with (r := c * 2 ^ 16 + b * 2 ^ 8 + a); lia).
  assert (L : forall p q r s, 0 <= p < 256 -> 0 <= q < 256 -> 0 <= r < 256 -> 0 <= s < 256 ->
     Z.land (p * 2 ^ 24 + q * 2 ^ 16 + r * 2 ^ 8 + s) 4278255360 = p * 2 ^ 24 + r * 2 ^ 8 /\
     Z.land (p * 2 ^ 24 + q * 2 ^ 16 + r * 2 ^ 8 + s) 16711935 = q * 2 ^ 16 + s).
  { clear. intros p q r s Hp Hq Hr Hs.
    assert (E : p * 2 ^ 24 + q * 2 ^ 16 + r * 2 ^ 8 + s = Z.lor (p * 2 ^ 24) (Z.lor (q * 2 ^ 16) (Z.lor (r * 2 ^ 8) s))).
    { rewrite (lor_add 8 r s), (lor_add 16 q), (lor_add 24 p) by lia. ring. }
    rewrite E, !Z.land_lor_distr_l. clear E.
    assert (A : forall v k, 0 <= v < 256 -> 0 <= k -> Z.land (v * 2 ^ k) (255 * 2 ^ k) = v * 2 ^ k).
    { intros v k Hv Hk. rewrite <- !Z.shiftl_mul_pow2 by lia. rewrite <- Z.shiftl_land, land_255.
      rewrite (Z.mod_small v 256) by lia. reflexivity. }
    assert (B : forall v k m, 0 <= v < 256 -> 0 <= k -> Z.land (Z.ones 8) (Z.shiftr m k) = 0 -> Z.land (v * 2 ^ k) m = 0).
    { intros v k m Hv Hk Hm. apply Z.bits_inj'. intros i Hi. rewrite Z.land_spec, Z.bits_0.
      rewrite <- Z.shiftl_mul_pow2 by lia. destruct (Z_lt_le_dec i k).
      - rewrite Z.shiftl_spec_low by lia. reflexivity.
      - rewrite Z.shiftl_spec by lia. apply (f_equal (fun w => Z.testbit w (i - k))) in Hm. cbn beta in Hm.
        rewrite Z.land_spec, Z.bits_0, Z.shiftr_spec in Hm by lia. replace (i - k + k) with i in Hm by lia.
        destruct (Z_lt_le_dec (i - k) 8).
        + rewrite Z.ones_spec_low in Hm by lia. cbn [andb] in Hm. rewrite Hm. apply andb_false_r.
        + rewrite (bits_word 8 v (i - k)) by lia. reflexivity. }
    assert (C : forall v k m2, 0 <= v < 256 -> 0 <= k -> Z.land (Z.ones 8) (Z.shiftr m2 k) = 0 -> Z.land (v * 2 ^ k) (Z.lor (255 * 2 ^ k) m2) = v * 2 ^ k).
    { intros v k m2 Hv Hk Hm. rewrite Z.land_lor_distr_r, A, B by assumption. apply Z.lor_0_r. }
    replace s with (s * 2 ^ 0) by lia.
    split.
    - rewrite (B q 16), (B s 0) by (lia || reflexivity).
      change 4278255360 with (Z.lor (255 * 2 ^ 24) (255 * 2 ^ 8)) at 1. rewrite (C p 24) by (lia || reflexivity).
      change 4278255360 with (Z.lor (255 * 2 ^ 8) (255 * 2 ^ 24)). rewrite (C r 8) by (lia || reflexivity).
      rewrite Z.lor_0_l, Z.lor_0_r. apply lor_add; lia.
    - rewrite (B p 24), (B r 8) by (lia || reflexivity).
      change 16711935 with (Z.lor (255 * 2 ^ 16) (255 * 2 ^ 0)) at 1. rewrite (C q 16) by (lia || reflexivity).
      change 16711935 with (Z.lor (255 * 2 ^ 0) (255 * 2 ^ 16)). rewrite (C s 0) by (lia || reflexivity).
      rewrite !Z.lor_0_l. replace (s * 2 ^ 0) with s by lia. apply lor_add; lia. }
  replace (a * 2 ^ 24 + (d * 2 ^ 16 + c * 2 ^ 8 + b)) with (a * 2 ^ 24 + d * 2 ^ 16 + c * 2 ^ 8 + b) by ring.
  rewrite (proj1 (L a d c b ltac:(lia) ltac:(lia) ltac:(lia) ltac:(lia))).
  rewrite (proj2 (L c b a d ltac:(lia) ltac:(lia) ltac:(lia) ltac:(lia))).
  assert (A1 : a * 2 ^ 24 + c * 2 ^ 8 = Z.lor (a * 2 ^ 24) (c * 2 ^ 8)) by (rewrite lor_add by lia; reflexivity).
  assert (A2 : b * 2 ^ 16 + d = Z.lor (b * 2 ^ 16) d) by (rewrite lor_add by lia; reflexivity).
  rewrite A1, A2. rewrite <- Z.lor_assoc, (Z.lor_assoc (c * 2 ^ 8)), (Z.lor_comm (c * 2 ^ 8)), <- Z.lor_assoc.
  rewrite (lor_add 8 c d), (lor_add 16 b), (lor_add 24 a) by lia. ring.
Qed.
Lemma flat_map_length (n : nat) (g : Z -> list Z) l : (forall x, length (g x) = n) -> length (flat_map g l) = (n * length l)%nat.
Proof. intros H. induction l as [|x l IH]; cbn [flat_map length]; [lia|]. rewrite app_length, H, IH. lia. Qed.
Lemma flat_map_byte (g : Z -> list Z) l : (forall x, Forall byte (g x)) -> Forall byte (flat_map g l).
Proof. intros H. induction l as [|x l IH]; cbn [flat_map]; [constructor|]. apply Forall_app. split; [apply H|exact IH]. Qed.
