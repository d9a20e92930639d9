(** Counting bits, and division by one word. *)
From Coq Require Import ZArith List Bool Lia.
From Verif Require Import BigModel BigSpec BigProofs BigProofs2 BigProofs3 BigProofs4.
Import ListNotations.
Open Scope Z_scope.

Lemma uval_testbit l : Forall word l -> forall k, Z.testbit (uval l) (Z.of_nat k) = Z.testbit (nth (k / 32) l 0) (Z.of_nat (k mod 32)).
Proof.
  induction 1 as [|x l Wx F IH]; intros k.
  - destruct (k / 32)%nat; cbn [nth uval]; rewrite !Z.bits_0; reflexivity.
  - apply word_lim in Wx. rewrite uval_cons, tb_cons by lia. destruct (Z.ltb_spec (Z.of_nat k) 32) as [L|L].
    + rewrite Nat.div_small, Nat.mod_small by lia. reflexivity.
    + replace (Z.of_nat k - 32) with (Z.of_nat (k - 32)) by lia. rewrite IH. replace k with ((k - 32) + 1 * 32)%nat at 3 4 by lia. rewrite Nat.div_add, Nat.mod_add by lia.
      rewrite Nat.add_comm. reflexivity.
Qed.
Lemma top_bits_spec k : forall v, 0 <= v < 2 ^ Z.of_nat k -> Z.of_nat (top_bits k v) = if v =? 0 then 0 else Z.log2 v + 1.
Proof.
  induction k as [|k IH]; intros v V; cbn [top_bits].
  - change (2 ^ Z.of_nat 0) with 1 in V. destruct (Z.eqb_spec v 0); lia.
  - assert (P : 2 ^ Z.of_nat (S k) = 2 * 2 ^ Z.of_nat k) by (rewrite Nat2Z.inj_succ, Z.pow_succ_r; lia). assert (0 < 2 ^ Z.of_nat k) by (apply Z.pow_pos_nonneg; lia).
    destruct (Z.lt_ge_cases v (2 ^ Z.of_nat k)) as [L|L].
    + assert (Z.testbit v (Z.of_nat k) = false) as ->.
      { destruct (Z.eq_dec v 0) as [->|]; [apply Z.bits_0|]. apply Z.bits_above_log2; [lia|]. apply Z.log2_lt_pow2; lia. }
      apply IH. lia.
    + assert (Lg : Z.log2 v = Z.of_nat k) by (apply Z.log2_unique; [lia|]; rewrite <- Nat2Z.inj_succ; lia).
      rewrite <- Lg at 1. rewrite Z.bit_log2 by lia. destruct (Z.eqb_spec v 0); lia.
Qed.
Lemma canon_len b z : denotes b z -> find_length (data b) (len b) = len b.
Proof.
  intros D. destruct (find_length_spec (data b) (len b) (proj1 (d_len _ _ D))) as (F1 & F2 & F3). pose proof (d_len _ _ D).
  destruct (Nat.eq_dec (find_length (data b) (len b)) (len b)) as [E|N]; [exact E|]. destruct (d_last _ _ D) as [L|L]; [lia|]. destruct L. apply F2. lia.
Qed.
(** The number is between the powers of its last word. *)
Lemma len_bounds b z : denotes b z -> let u := z mod Full in 0 <= u < pw (len b) /\ (len b = 1%nat \/ pw (len b - 1) <= u) /\
  u = uval (firstn (len b - 1) (data b)) + pw (len b - 1) * nth (len b - 1) (data b) 0.
Proof.
  intros [S F R V L A T]. cbv zeta. rewrite <- V. pose proof (uval_low (len b) (data b) A) as U. pose proof (uval_bound _ (firstn_words (len b) _ F)) as Bd. rewrite firstn_length, S in Bd. rewrite <- U in Bd.
  replace (Nat.min (len b) 256) with (len b) in Bd by lia. split; [exact Bd|].
  assert (E : uval (data b) = uval (firstn (len b - 1) (data b)) + pw (len b - 1) * nth (len b - 1) (data b) 0).
  { rewrite U. replace (len b) with (Datatypes.S (len b - 1)) at 1 by lia. rewrite firstn_snoc by lia. rewrite uval_app, firstn_length, S. replace (Nat.min (len b - 1) 256) with (len b - 1)%nat by lia. rewrite uval_cons. change (uval []) with 0. lia. }
  split; [|exact E]. destruct T as [T|T]; [auto|]. right. pose proof (uval_bound _ (firstn_words (len b - 1) _ F)). pose proof (nth_word (data b) (len b - 1) F). pose proof (pw_pos (len b - 1)). nia.
Qed.
Lemma log2_shift w n u : 0 < w -> 0 <= u < pw n -> Z.log2 (u + pw n * w) = Z.log2 w + 32 * Z.of_nat n.
Proof.
  intros W U. pose proof (pw_pos n). pose proof (Z.log2_spec w W) as [L1 L2]. pose proof (Z.log2_nonneg w). apply Z.log2_unique; [lia|].
  rewrite <- Z.add_succ_l. rewrite !Z.pow_add_r by lia. rewrite <- pw_2. nia.
Qed.
Lemma bitcount_u b z : denotes b z -> bitcount b = if z mod Full =? 0 then 0 else Z.log2 (z mod Full) + 1.
Proof.
  intros D. unfold bitcount. cbv zeta. cbn [reduce_len len]. rewrite (canon_len b z D). pose proof (d_len _ _ D). replace (Nat.max (len b) 1) with (len b) by lia.
  destruct (len_bounds b z D) as (B1 & B2 & B3). cbv zeta in B1, B2, B3. pose proof (nth_word (data b) (len b - 1) (d_words _ _ D)) as W. rewrite top_bits_spec by (change (2 ^ Z.of_nat 32) with BB; exact W).
  pose proof (uval_bound _ (firstn_words (len b - 1) _ (d_words _ _ D))) as Lo. rewrite firstn_length, (d_size _ _ D) in Lo. replace (Nat.min (len b - 1) 256) with (len b - 1)%nat in Lo by lia.
  destruct (Z.eqb_spec (nth (len b - 1) (data b) 0) 0) as [E|N].
  - destruct (d_last _ _ D) as [T|T]; [|contradiction]. rewrite T in *. change (1 - 1)%nat with O in *. rewrite pw_0 in *. rewrite E in B3. change (firstn 0 (data b)) with (@nil Z) in *. change (uval []) with 0 in *.
    rewrite B3. reflexivity.
  - rewrite B3. rewrite log2_shift by lia. pose proof (pw_pos (len b - 1)). destruct (Z.eqb_spec (uval (firstn (len b - 1) (data b)) + pw (len b - 1) * nth (len b - 1) (data b) 0) 0); [nia|lia].
Qed.
Lemma bitcount_spec b z : denotes b z -> bitcount b = if z =? 0 then 0 else if z <? 0 then 8192 else Z.log2 z + 1.
Proof.
  intros D. rewrite (bitcount_u b z D). pose proof (d_range _ _ D) as R. rewrite (mod_Full_range z R). unfold in_range in R. pose proof Full_Half. pose proof Half_pos.
  destruct (Z.eqb_spec z 0) as [->|N]; [reflexivity|]. destruct (Z.ltb_spec z 0).
  - destruct (Z.eqb_spec (z + Full) 0); [lia|]. rewrite (Z.log2_unique (z + Full) 8191); [reflexivity|lia|]. rewrite <- Half_2. change (Z.succ 8191) with 8192. rewrite <- Full_2. lia.
  - destruct (Z.eqb_spec z 0); lia.
Qed.

Lemma sbd_loop_spec d : 0 < d < BB -> forall rd rem q r, Forall word rd -> 0 <= rem < d -> sbd_loop rd d rem = (q, r) ->
  length q = length rd /\ Forall word q /\ uval (rev q) * d + r = rem * pw (length rd) + uval (rev rd) /\ 0 <= r < d.
Proof.
  intros Dd rd. induction rd as [|x rd IH]; intros rem q r F R E; cbn [sbd_loop] in E.
  - injection E as <- <-. cbn [length rev]. rewrite pw_0. change (uval []) with 0. repeat split; auto; lia.
  - inversion F as [|? ? Wx F']; subst. apply word_lim in Wx. assert (0 <= rem * BB <= 18446744069414584320) by nia. unfold B in E. rewrite (u64_small (rem * BB)) in E by lia. rewrite u64_small in E by lia.
    pose proof (Z.div_mod (rem * BB + x) d ltac:(lia)) as DM. pose proof (Z.mod_pos_bound (rem * BB + x) d ltac:(lia)) as MB.
    assert (Q : 0 <= (rem * BB + x) / d < BB) by (split; [apply Z.div_pos; lia|apply Z.div_lt_upper_bound; nia]).
    rewrite (u32_small ((rem * BB + x) mod d)) in E by lia. rewrite (u32_small ((rem * BB + x) / d)) in E by lia.
    destruct (sbd_loop rd d ((rem * BB + x) mod d)) as [q' r'] eqn:El. injection E as <- <-. destruct (IH _ _ _ F' MB El) as (I1 & I2 & I3 & I4).
    cbn [length rev]. rewrite !uval_app, !rev_length, I1, pw_S, !uval_cons. change (uval []) with 0. split; [lia|]. split; [constructor; auto; apply word_mk; lia|]. split; [|lia]. nia.
Qed.
Lemma pad_reduce w n z : (length w <= 256)%nat -> Forall word w -> uval w = z -> z < Half -> (length w <= n <= 256)%nat -> denotes (reduce_len (w ++ zeros (MAX_LEN - length w)) n) z.
Proof.
  intros L F U H N. pose proof (uval_bound w F) as Bd. pose proof Full_Half. destruct (pad_facts w L F) as (P1 & P2 & P3 & P4). apply denotes_reduce; auto.
  - unfold in_range. lia.
  - rewrite P3, Z.mod_small by lia. exact U.
  - lia.
  - intros i Hi. apply P4. lia.
Qed.
Lemma one_word b y : denotes b y -> 0 <= y -> len b = 1%nat -> nth 0 (data b) 0 = y /\ 0 <= y < BB.
Proof.
  intros D P L. destruct (len_bounds b y D) as (B1 & B2 & B3). cbv zeta in *. rewrite L in *. change (1 - 1)%nat with O in *. rewrite pw_0 in B3. change (firstn 0 (data b)) with (@nil Z) in B3. change (uval []) with 0 in B3.
  rewrite (mod_Full_range y (d_range _ _ D)) in *. destruct (Z.ltb_spec y 0); [lia|]. change (pw 1) with BB in B1. lia.
Qed.
Lemma small_len b y : denotes b y -> 0 <= y < BB -> len b = 1%nat.
Proof.
  intros D P. destruct (len_bounds b y D) as (B1 & B2 & B3). cbv zeta in *. rewrite (mod_Full_range y (d_range _ _ D)) in *. destruct (Z.ltb_spec y 0); [lia|]. destruct B2 as [B2|B2]; [exact B2|].
  pose proof (d_len _ _ D). destruct (Nat.eq_dec (len b) 1) as [E|N]; [exact E|]. pose proof (pw_le 1 (len b - 1) ltac:(lia)) as M. change (pw 1) with BB in M. lia.
Qed.
Lemma sbd_spec a b x y : denotes a x -> denotes b y -> 0 <= x -> 0 < y < BB -> exists q r, single_byte_divide a b = Ok (q, r) /\ denotes q (x / y) /\ denotes r (x mod y) /\ nth 0 (data r) 0 = x mod y.
Proof.
  intros Da Db X Y. destruct (one_word b y Db ltac:(lia) (small_len b y Db ltac:(lia))) as [W _]. unfold single_byte_divide. rewrite (canon_len a x Da), W. cbv zeta.
  destruct (len_bounds a x Da) as (B1 & B2 & B3). cbv zeta in *. rewrite (mod_Full_range x (d_range _ _ Da)) in *. destruct (Z.ltb_spec x 0); [lia|].
  pose proof (d_len _ _ Da) as La. pose proof (nth_word (data a) (len a - 1) (d_words _ _ Da)) as Wt. set (top := nth (len a - 1) (data a) 0) in *.
  assert (Wl : Forall word (rev (firstn (len a - 1) (data a)))) by (apply Forall_rev, firstn_words, (d_words _ _ Da)).
  assert (Ll : length (rev (firstn (len a - 1) (data a))) = (len a - 1)%nat) by (rewrite rev_length, firstn_length, (d_size _ _ Da); lia).
  destruct (Z.eqb_spec y 0); [lia|]. rewrite andb_false_r.
  assert (R : exists q r, (if y <=? top then let (q, r) := sbd_loop (rev (firstn (len a - 1) (data a))) y (u32 (top mod y)) in (u32 (top / y) :: q, r) else sbd_loop (rev (firstn (len a - 1) (data a))) y top) = (q, r) /\
    (length q <= len a)%nat /\ Forall word q /\ uval (rev q) * y + r = x /\ 0 <= r < y).
  { destruct (Z.leb_spec y top) as [L|L].
    - pose proof (Z.div_mod top y ltac:(lia)) as DM. pose proof (Z.mod_pos_bound top y ltac:(lia)) as MB. assert (Q : 0 <= top / y < BB) by (split; [apply Z.div_pos; lia|apply Z.div_lt_upper_bound; nia]).
      rewrite !u32_small by lia. destruct (sbd_loop _ y (top mod y)) as [q r] eqn:E. destruct (sbd_loop_spec y ltac:(lia) _ _ _ _ Wl MB E) as (I1 & I2 & I3 & I4).
      eexists. eexists. split; [reflexivity|]. rewrite Ll in *. rewrite rev_involutive in I3. cbn [length rev]. split; [lia|]. split; [constructor; auto; apply word_mk; lia|]. split; [|lia].
      rewrite uval_app, rev_length, I1, uval_cons. change (uval []) with 0. rewrite B3. nia.
    - assert (T0 : 0 <= top < y) by lia. destruct (sbd_loop _ y top) as [q r] eqn:E. destruct (sbd_loop_spec y ltac:(lia) _ _ _ _ Wl T0 E) as (I1 & I2 & I3 & I4).
      eexists. eexists. split; [reflexivity|]. rewrite Ll in *. rewrite rev_involutive in I3. split; [lia|]. split; [auto|]. split; [|lia]. rewrite B3. nia. }
  destruct R as (q & r & -> & Lq & Wq & Eq & Rr). pose proof (uval_bound _ (Forall_rev Wq)) as Uq.
  assert (Q : uval (rev q) = x / y) by (apply (Z.div_unique_pos x y _ r); lia). assert (Rm : r = x mod y) by (apply (Z.mod_unique_pos x y (uval (rev q)) r); lia).
  pose proof (d_range _ _ Da) as Rx. unfold in_range in Rx. eexists. eexists. split; [reflexivity|]. split; [|split].
  - rewrite <- (rev_length q) at 1. rewrite <- (rev_length q). apply pad_reduce; rewrite ?rev_length; [lia|apply Forall_rev, Wq|exact Q|rewrite <- Q; nia|lia].
  - change (r :: zeros (MAX_LEN - 1)) with ([r] ++ zeros (MAX_LEN - length [r])). apply pad_reduce; cbn [length]; [lia|constructor; auto; apply word_mk; lia|rewrite uval_cons; change (uval []) with 0; lia|nia|lia].
  - cbn [reduce_len data nth]. exact Rm.
Qed.
