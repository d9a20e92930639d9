(** Construction, bitwise operations, multiplication. *)
From Coq Require Import ZArith List Bool Lia.
From Verif Require Import BigModel BigSpec BigProofs BigProofs2.
Import ListNotations.
Open Scope Z_scope.

Lemma init_words_spec f : forall t, (length (init_words f t) <= f)%nat /\ Forall word (init_words f t) /\ uval (init_words f t) = t mod pw f /\
  (0 <= t < pw f -> init_words f t = [] \/ nth (length (init_words f t) - 1) (init_words f t) 0 <> 0).
Proof.
  induction f as [|f IH]; intros t.
  - cbn [init_words length]. rewrite pw_0, Z.mod_1_r. repeat split; auto.
  - cbn [init_words]. pose proof (pw_pos (S f)) as P. destruct (Z.eqb_spec t 0) as [->|N].
    + rewrite Z.mod_0_l by lia. repeat split; auto. cbn. lia.
    + destruct (IH (t / B)) as (I1 & I2 & I3 & I4). cbn [length]. unfold B in *. pose proof (Z.mod_pos_bound t BB ltac:(lia)) as M. pose proof (Z.div_mod t BB ltac:(lia)) as D.
      pose proof (pw_pos f) as Pf. rewrite pw_S. split; [lia|]. split; [constructor; auto; apply word_mk; lia|]. split.
      * rewrite uval_cons, I3. rewrite (Z.rem_mul_r t BB (pw f)) by lia. lia.
      * intros Ht. right. replace (S (length (init_words f (t / BB))) - 1)%nat with (length (init_words f (t / BB))) by lia.
        destruct I4 as [E|E]; [nia| |].
        -- rewrite E in *. cbn [length nth]. change (uval []) with 0 in I3. rewrite Z.mod_small in I3 by nia. lia.
        -- destruct (init_words f (t / BB)) as [|w ws]; [cbn in E; lia|]. cbn [length] in *. replace (S (length ws) - 1)%nat with (length ws) in E by lia. cbn [nth]. exact E.
Qed.
Lemma pad_facts w : (length w <= 256)%nat -> Forall word w -> let d := w ++ zeros (MAX_LEN - length w) in
  size d /\ Forall word d /\ uval d = uval w /\ forall i, (length w <= i)%nat -> nth i d 0 = 0.
Proof.
  intros L F d. unfold d. change MAX_LEN with 256%nat. split; [unfold size; rewrite app_length, zeros_len; lia|]. split; [apply Forall_app; split; [auto|apply zeros_words]|].
  split; [rewrite uval_app, uval_zeros; lia|]. intros i Hi. rewrite app_nth2 by exact Hi. apply nth_repeat.
Qed.
Lemma from_int_spec z : in_range z -> gives (from_int z) z.
Proof.
  intros R. unfold from_int. destruct (init_words_spec MAX_LEN z) as (I1 & I2 & I3 & _). set (w := init_words MAX_LEN z) in *. clearbody w. change MAX_LEN with 256%nat in I1, I3.
  destruct (pad_facts w I1 I2) as (P1 & P2 & P3 & P4). cbv zeta. set (d := w ++ _) in *. clearbody d. rewrite I3, <- Full_pw in P3.
  pose proof (denotes_reduce d (length w) z P1 P2 R P3 I1 P4) as D. assert (N : neg_words d = (z <? 0)) by exact (neg_iff _ _ D).
  rewrite N. exists (reduce_len d (length w)). split; [|exact D].
  destruct (Z.ltb_spec z 0), (Z.leb_spec 0 z); try lia; cbn [orb negb]; rewrite ?orb_true_r; reflexivity.
Qed.
Lemma from_u128_spec z : 0 <= z < Half -> gives (from_u128 z) z.
Proof.
  intros R. unfold from_u128. destruct (init_words_spec MAX_LEN z) as (I1 & I2 & I3 & I4). set (w := init_words MAX_LEN z) in *. clearbody w. change MAX_LEN with 256%nat in I1, I3, I4.
  destruct (pad_facts w I1 I2) as (P1 & P2 & P3 & P4). cbv zeta. rewrite <- Full_pw in *. pose proof Full_Half. pose proof Half_pos.
  rewrite neg_words_val by auto. rewrite P3, I3, Z.mod_small by lia. destruct (Z.leb_spec Half z); [lia|]. eexists. split; [reflexivity|].
  constructor; cbn [data len]; auto.
  - unfold in_range. lia.
  - rewrite P3, I3. reflexivity.
  - lia.
  - intros i Hi. apply P4. lia.
  - destruct I4 as [->|E]; [lia|left; reflexivity|]. destruct w as [|x w]; [left; reflexivity|]. right. rewrite Nat.max_l by (cbn; lia). rewrite app_nth1 by (cbn; lia). exact E.
Qed.
Lemma from_array_spec v : (length v <= 256)%nat -> Forall word v -> denotes (from_array v) (sgn_of (uval (rev v))).
Proof.
  intros L F. destruct v as [|x v'] eqn:E.
  - cbn [from_array rev]. change (sgn_of (uval [])) with (sgn_of 0). unfold sgn_of. pose proof Half_pos. destruct (Z.ltb_spec 0 Half); [|lia]. exact denotes_zeros.
  - unfold from_array. rewrite <- E in *. assert (F' : Forall word (rev v)) by (apply Forall_rev, F). assert (L' : (length (rev v) <= 256)%nat) by (rewrite rev_length; exact L).
    destruct (pad_facts (rev v) L' F') as (P1 & P2 & P3 & P4). rewrite rev_length in *. cbv zeta. set (d := rev v ++ _) in *.
    pose proof (uval_bound d P2) as UB. rewrite P1, <- Full_pw in UB. destruct (sgn_of_range _ UB) as [R M]. rewrite <- P3.
    assert (1 <= length v)%nat by (rewrite E; cbn; lia).
    replace (Big d (find_length d (length v))) with (reduce_len d (length v)).
    + apply denotes_reduce; auto.
    + unfold reduce_len. destruct (find_length_spec d (length v)) as (A & _); [auto|]. rewrite Nat.max_l by lia. reflexivity.
Qed.

(** Bits. *)
Lemma tb_cons x u n : 0 <= x < BB -> 0 <= n -> Z.testbit (x + BB * u) n = if n <? 32 then Z.testbit x n else Z.testbit u (n - 32).
Proof.
  intros X N. change BB with (2 ^ 32) in *. destruct (Z.ltb_spec n 32).
  - rewrite <- (Z.mod_pow2_bits_low (x + 2 ^ 32 * u) 32 n) by lia. rewrite Z.mul_comm, Z_mod_plus by lia. apply Z.mod_pow2_bits_low. lia.
  - replace n with (n - 32 + 32) at 1 by lia. rewrite <- Z.div_pow2_bits by lia. rewrite Z.mul_comm, Z_div_plus by lia. rewrite Z.div_small by lia. rewrite Z.add_0_l. reflexivity.
Qed.
Lemma small_bits x k : 0 <= k -> 0 <= x -> (forall n, k <= n -> Z.testbit x n = false) -> x < 2 ^ k.
Proof.
  intros K X H. assert (E : x mod 2 ^ k = x).
  { apply Z.bits_inj'. intros n Hn. destruct (Z.lt_ge_cases n k); [apply Z.mod_pow2_bits_low; lia|]. rewrite Z.mod_pow2_bits_high by lia. symmetry. apply H. lia. }
  rewrite <- E. apply Z.mod_pos_bound. apply Z.pow_pos_nonneg; lia.
Qed.
Lemma word_high x n : 0 <= x < BB -> 32 <= n -> Z.testbit x n = false.
Proof. intros X N. rewrite <- (Z.mod_small x BB) by lia. change BB with (2 ^ 32). apply Z.mod_pow2_bits_high. lia. Qed.

Section Bit.
Variable f : Z -> Z -> Z.
Variable g : bool -> bool -> bool.
Hypothesis f_bits : forall a b n, 0 <= n -> Z.testbit (f a b) n = g (Z.testbit a n) (Z.testbit b n).
Hypothesis g_ff : g false false = false.
Hypothesis f_nonneg : forall a b, 0 <= a -> 0 <= b -> 0 <= f a b.
Lemma f_word x y : 0 <= x < BB -> 0 <= y < BB -> 0 <= f x y < BB.
Proof.
  intros X Y. assert (0 <= f x y) by (apply f_nonneg; lia). split; [auto|]. change BB with (2 ^ 32). apply small_bits; auto; [lia|]. intros n Hn.
  rewrite f_bits by lia. rewrite !word_high by (auto; lia). exact g_ff.
Qed.
Lemma f_cons x y u v : 0 <= x < BB -> 0 <= y < BB -> f (x + BB * u) (y + BB * v) = f x y + BB * f u v.
Proof.
  intros X Y. apply Z.bits_inj'. intros n Hn. rewrite f_bits, !tb_cons by (auto; apply f_word; auto). destruct (Z.ltb_spec n 32); rewrite f_bits by lia; reflexivity.
Qed.
Lemma f_00 : f 0 0 = 0. Proof. apply Z.bits_inj'. intros n Hn. rewrite f_bits by lia. rewrite !Z.bits_0. exact g_ff. Qed.
Lemma bits_loop_spec n : forall a b, Forall word a -> Forall word b -> length a = length b -> (forall i, (n <= i)%nat -> nth i a 0 = 0) -> (forall i, (n <= i)%nat -> nth i b 0 = 0) ->
  length (bits_loop f n a b) = length a /\ Forall word (bits_loop f n a b) /\ uval (bits_loop f n a b) = f (uval a) (uval b).
Proof.
  induction n as [|n IH]; intros a b Fa Fb L Za Zb.
  - cbn [bits_loop]. rewrite (uval_all0 a), (uval_all0 b) by (intros; first [apply Za|apply Zb]; lia). rewrite f_00. repeat split; auto.
  - destruct a as [|x a], b as [|y b]; try discriminate; [cbn; rewrite f_00; repeat split; auto|]. cbn [bits_loop length] in *.
    inversion Fa as [|? ? X Fa']; inversion Fb as [|? ? Y Fb']; subst. apply word_lim in X, Y.
    destruct (IH a b) as (I1 & I2 & I3); auto; try lia; [intros i Hi; apply (Za (S i)); lia|intros i Hi; apply (Zb (S i)); lia|].
    split; [lia|]. split; [constructor; auto; apply word_mk, f_word; auto|]. rewrite !uval_cons, I3, f_cons by auto. reflexivity.
Qed.
Lemma f_mod x y k : 0 <= k -> f (x mod 2 ^ k) (y mod 2 ^ k) = f x y mod 2 ^ k.
Proof.
  intros K. apply Z.bits_inj'. intros n Hn. rewrite f_bits by lia. destruct (Z.lt_ge_cases n k).
  - rewrite !Z.mod_pow2_bits_low by lia. symmetry. apply f_bits. lia.
  - rewrite !Z.mod_pow2_bits_high by lia. exact g_ff.
Qed.
Lemma f_shiftr x y k : 0 <= k -> Z.shiftr (f x y) k = f (Z.shiftr x k) (Z.shiftr y k).
Proof. intros K. apply Z.bits_inj'. intros n Hn. rewrite f_bits, !Z.shiftr_spec by lia. apply f_bits. lia. Qed.
Lemma range_shift z : in_range z <-> Z.shiftr z 8191 = 0 \/ Z.shiftr z 8191 = -1.
Proof.
  rewrite Z.shiftr_div_pow2 by lia. rewrite <- Half_2. pose proof Half_pos as P. unfold in_range. pose proof (Z.div_mod z Half ltac:(lia)) as D. pose proof (Z.mod_pos_bound z Half P) as M.
  set (q := z / Half) in *. set (m := z mod Half) in *. clearbody q m. subst z. split; intros H.
  - assert (-2 < q < 1) by nia. lia.
  - destruct H as [-> | ->]; lia.
Qed.
Hypothesis f_sign : forall x y, (x = 0 \/ x = -1) -> (y = 0 \/ y = -1) -> f x y = 0 \/ f x y = -1.
Lemma bit_op_spec a b x y : denotes a x -> denotes b y -> denotes (bit_op f a b) (f x y).
Proof.
  intros Da Db. unfold bit_op. destruct (denotes_max a b x y _ Da Db eq_refl) as (Hn & Za & Zb). set (n := Nat.max _ _) in *. clearbody n.
  destruct (bits_loop_spec n (data a) (data b)) as (I1 & I2 & I3); auto; try apply Da; try apply Db; [rewrite (d_size _ _ Da), (d_size _ _ Db); reflexivity|].
  rewrite (d_size _ _ Da) in I1. apply denotes_reduce; auto.
  - apply range_shift. rewrite f_shiftr by lia. apply f_sign; apply range_shift; [apply Da|apply Db].
  - rewrite I3, (d_value _ _ Da), (d_value _ _ Db), Full_2. apply f_mod. lia.
  - intros i Hi. apply nth_overflow. rewrite I1. exact Hi.
Qed.
End Bit.
Lemma bit_and_spec a b x y : denotes a x -> denotes b y -> denotes (bit_and a b) (Z.land x y).
Proof.
  apply bit_op_spec with andb; auto.
  - intros. apply Z.land_spec.
  - intros. apply Z.land_nonneg. auto.
  - intros ? ? [-> | ->] [-> | ->]; cbn; auto.
Qed.
Lemma bit_or_spec a b x y : denotes a x -> denotes b y -> denotes (bit_or a b) (Z.lor x y).
Proof.
  apply bit_op_spec with orb; auto.
  - intros. apply Z.lor_spec.
  - intros. apply Z.lor_nonneg. auto.
  - intros ? ? [-> | ->] [-> | ->]; cbn; auto.
Qed.
Lemma bit_xor_spec a b x y : denotes a x -> denotes b y -> denotes (bit_xor a b) (Z.lxor x y).
Proof.
  apply bit_op_spec with xorb; auto.
  - intros. apply Z.lxor_spec.
  - intros. apply Z.lxor_nonneg. split; auto.
  - intros ? ? [-> | ->] [-> | ->]; cbn; auto.
Qed.
Lemma bit_negate_spec a x : denotes a x -> denotes (bit_negate a) (Z.lnot x).
Proof.
  intros D. unfold bit_negate. pose proof Full_pos as FP. pose proof (d_range _ _ D) as R. apply denotes_reduce.
  - unfold size. rewrite map_length. apply D.
  - apply compl_words, D.
  - unfold in_range, Z.lnot in *. lia.
  - rewrite compl_val, (d_size _ _ D), <- Full_pw, (d_value _ _ D). unfold Z.lnot. pose proof (Z.mod_pos_bound x Full FP) as M. pose proof (Z.div_mod x Full ltac:(lia)) as DM.
    rewrite <- (Z.mod_small (Full - 1 - x mod Full) Full) by lia. replace (Full - 1 - x mod Full) with (Z.pred (- x) + (x / Full + 1) * Full) by lia. apply Z_mod_plus. lia.
  - reflexivity.
  - intros i Hi. apply nth_overflow. rewrite map_length, (d_size _ _ D). exact Hi.
Qed.
