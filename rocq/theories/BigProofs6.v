(** Shifts to the left; division and remainder. *)
From Coq Require Import ZArith List Bool Lia.
From Verif Require Import BigModel BigSpec BigProofs BigProofs2 BigProofs3 BigProofs4 BigProofs5.
Import ListNotations.
Open Scope Z_scope.

Lemma lor_add x c s : 0 <= s -> 0 <= c < 2 ^ s -> Z.lor (x * 2 ^ s) c = x * 2 ^ s + c.
Proof.
  intros S C. assert (L : Z.land (x * 2 ^ s) c = 0).
  { apply Z.bits_inj'. intros n Hn. rewrite Z.land_spec, Z.bits_0. destruct (Z.lt_ge_cases n s) as [H|H]; [rewrite Z.mul_pow2_bits_low by lia; reflexivity|].
    rewrite <- (Z.mod_small c (2 ^ s)) by lia. rewrite Z.mod_pow2_bits_high by lia. apply andb_false_r. }
  rewrite Z.add_nocarry_lxor, Z.lxor_lor by exact L. reflexivity.
Qed.
Lemma shl_pass_spec n : forall d s c r c', (n <= length d)%nat -> Forall word d -> 0 <= s <= 32 -> 0 <= c < 2 ^ s -> shl_pass n d s c = (r, c') ->
  length r = length d /\ Forall word r /\ uval (firstn n r) + pw n * c' = uval (firstn n d) * 2 ^ s + c /\ skipn n r = skipn n d /\ 0 <= c' < 2 ^ s.
Proof.
  induction n as [|n IH]; intros d s c r c' L F S C E; cbn [shl_pass] in E.
  - injection E as <- <-. rewrite pw_0. cbn [firstn]. change (uval []) with 0. repeat split; auto; lia.
  - destruct d as [|x d]; [cbn in L; lia|]. inversion F as [|? ? Wx F']; subst. apply word_lim in Wx. cbn [length] in L. assert (P : 0 < 2 ^ s <= BB) by (split; [apply Z.pow_pos_nonneg; lia|change BB with (2 ^ 32); apply Z.pow_le_mono_r; lia]).
    rewrite u64_small in E by nia. rewrite lor_add in E by lia. set (v := x * 2 ^ s + c) in *. pose proof (Z.div_mod v BB ltac:(lia)) as DM. pose proof (Z.mod_pos_bound v BB ltac:(lia)) as MB. unfold B in E.
    assert (V : 0 <= v < BB * 2 ^ s) by (unfold v; pose proof (Z.mul_nonneg_nonneg (BB - 1 - x) (2 ^ s) ltac:(lia) ltac:(lia)); pose proof (Z.mul_nonneg_nonneg x (2 ^ s) ltac:(lia) ltac:(lia)); lia).
    assert (Q : 0 <= v / BB < 2 ^ s) by (split; [apply Z.div_pos; lia|apply Z.div_lt_upper_bound; lia]).
    destruct (shl_pass n d s (v / BB)) as [t c2] eqn:Et. injection E as <- <-. destruct (IH d s (v / BB) t c2 ltac:(lia) F' S Q Et) as (I1 & I2 & I3 & I4 & I5).
    cbn [length firstn skipn]. rewrite !uval_cons, pw_S. split; [lia|]. split; [constructor; auto|]. split; [unfold v in *; nia|]. auto.
Qed.
Lemma shl_loop_spec f : forall d n buf count d' buf', size d -> Forall word d -> (1 <= buf <= n)%nat -> (n <= 256)%nat -> tail0 buf d -> 0 <= count <= 32 * Z.of_nat f -> shl_loop f d n buf count = (d', buf') ->
  size d' /\ Forall word d' /\ uval d' = (uval d * 2 ^ count) mod pw n /\ (buf <= buf' <= n)%nat /\ tail0 buf' d'.
Proof.
  assert (Done : forall d n buf, size d -> Forall word d -> (1 <= buf <= n)%nat -> (n <= 256)%nat -> tail0 buf d -> size d /\ Forall word d /\ uval d = (uval d * 2 ^ 0) mod pw n /\ (buf <= buf <= n)%nat /\ tail0 buf d).
  { intros d n buf S F Hb Hn T. repeat split; auto; try lia. rewrite Z.mul_1_r. symmetry. apply Z.mod_small. pose proof (uval_low buf d T) as U. pose proof (uval_bound _ (firstn_words buf d F)) as Bd. rewrite <- U, firstn_length, S in Bd.
    pose proof (pw_le (Nat.min buf 256) n ltac:(lia)). lia. }
  induction f as [|f IH]; intros d n buf count d' buf' S F Hb Hn T C E; cbn [shl_loop] in E.
  - injection E as <- <-. replace count with 0 by lia. apply Done; auto.
  - destruct (Z.leb_spec count 0) as [L|L]; [injection E as <- <-; replace count with 0 by lia; apply Done; auto|].
    set (s := if count <? 32 then count else 32) in *. assert (Hs : 0 < s <= 32 /\ 0 <= count - s <= 32 * Z.of_nat f) by (unfold s; destruct (Z.ltb_spec count 32); lia).
    destruct (shl_pass buf d s 0) as [d1 c] eqn:Ep. cbv zeta in E.
    destruct (shl_pass_spec buf d s 0 d1 c) as (I1 & I2 & I3 & I4 & I5); auto; [rewrite S; lia|lia|split; [lia|apply Z.pow_pos_nonneg; lia]|].
    assert (T1 : tail0 buf d1) by (intros i Hi; rewrite (nth_above_skip d1 d buf I4 i Hi); apply T, Hi). rewrite <- (uval_low buf d T), <- (uval_low buf d1 T1), Z.add_0_r in I3.
    assert (Cw : 0 <= c < BB) by (pose proof (Z.pow_le_mono_r 2 s 32 ltac:(lia) ltac:(lia)); change BB with (2 ^ 32); lia).
    assert (P2 : 2 ^ count = 2 ^ s * 2 ^ (count - s)) by (rewrite <- Z.pow_add_r by lia; f_equal; lia). pose proof (pw_pos n).
    destruct (negb (c =? 0) && Nat.leb (buf + 1) n) eqn:Q.
    + apply andb_true_iff in Q. destruct Q as [_ Q]. apply Nat.leb_le in Q. rewrite u32_small in E by lia.
      apply IH in E; try lia; [| unfold size; rewrite set_length; congruence | apply set_words; [auto|apply word_mk, Cw] |].
      * destruct E as (J1 & J2 & J3 & J4 & J5). split; [auto|]. split; [auto|]. split; [|split; [lia|auto]]. rewrite J3, uval_set by (rewrite I1, S; lia). rewrite (T1 buf) by lia. f_equal. rewrite P2. replace (uval d1 + (c - 0) * pw buf) with (uval d * 2 ^ s) by lia. lia.
      * intros i Hi. rewrite nth_set by (rewrite I1, S; lia). destruct (Nat.eqb_spec buf i); [lia|]. apply T1. lia.
    + apply IH in E; try lia; auto; [|unfold size; congruence]. destruct E as (J1 & J2 & J3 & J4 & J5). split; [auto|]. split; [auto|]. split; [|split; [lia|auto]]. rewrite J3, P2, Z.mul_assoc, <- I3.
      apply andb_false_iff in Q. destruct Q as [Q|Q].
      * assert (c = 0) as -> by lia. f_equal. lia.
      * apply Nat.leb_gt in Q. assert (buf = n) as -> by lia. rewrite <- (Z.mul_mod_idemp_l (uval d1 + pw n * c)) by lia. rewrite Z.mul_comm with (n := pw n), Z_mod_plus_full. rewrite Z.mul_mod_idemp_l by lia. reflexivity.
Qed.
Lemma shift_left_spec d n s d' n' : size d -> Forall word d -> (1 <= n <= 256)%nat -> tail0 n d -> 0 <= s -> shift_left d n s = (d', n') ->
  size d' /\ Forall word d' /\ uval d' = (uval d * 2 ^ s) mod pw n /\ (find_length d n <= n' <= n)%nat /\ tail0 n' d'.
Proof.
  intros S F Hn T Hs E. unfold shift_left in E. destruct (find_length_spec d n (proj1 Hn)) as (A1 & A2 & A3). apply shl_loop_spec in E; auto; try lia.
  - intros i Hi. destruct (Nat.lt_ge_cases i n); [apply A2; lia|apply T; auto].
  - split; [lia|]. rewrite Nat2Z.inj_succ, Z2Nat.id by (pose proof (Z.div_pos s 32 Hs ltac:(lia)); lia). pose proof (Z.div_mod s 32 ltac:(lia)). pose proof (Z.mod_pos_bound s 32 ltac:(lia)). lia.
Qed.
Lemma shl_facts b z s : denotes b z -> 0 <= s -> size (data (shl b s)) /\ Forall word (data (shl b s)) /\ uval (data (shl b s)) = ((z mod Full) * 2 ^ s) mod pw (len b) /\ len (shl b s) = len b /\ tail0 (len b) (data (shl b s)).
Proof.
  intros D Hs. unfold shl. destruct (shift_left (data b) (len b) s) as [d n] eqn:E. apply shift_left_spec in E; auto; [|apply (d_size _ _ D)|apply (d_words _ _ D)|apply (d_len _ _ D)|exact (d_above _ _ D)].
  rewrite (canon_len b z D), (d_value _ _ D) in E. destruct E as (E1 & E2 & E3 & E4 & E5). cbn [data len]. assert (n = len b) as -> by lia. auto.
Qed.
Lemma len_words b z : denotes b z -> 0 <= z -> Z.of_nat (len b) = Z.log2 z / 32 + 1.
Proof.
  intros D P. destruct (len_bounds b z D) as (B1 & B2 & _). cbv zeta in *. rewrite (mod_Full_range z (d_range _ _ D)) in *. destruct (Z.ltb_spec z 0); [lia|]. pose proof (d_len _ _ D).
  destruct (Z.eq_dec z 0) as [->|N].
  - destruct B2 as [->|B2]; [reflexivity|]. pose proof (pw_pos (len b - 1)). lia.
  - rewrite pw_2 in B1. assert (Z.log2 z < 32 * Z.of_nat (len b)) by (apply Z.log2_lt_pow2; lia). pose proof (Z.log2_nonneg z).
    destruct B2 as [B2|B2]; [rewrite B2 in *; rewrite Z.div_small by lia; reflexivity|]. rewrite pw_2 in B2. assert (32 * Z.of_nat (len b - 1) <= Z.log2 z) by (apply Z.log2_le_pow2; lia).
    assert (Z.of_nat (len b - 1) = Z.log2 z / 32); [|lia]. apply (Z.div_unique_pos (Z.log2 z) 32 _ (Z.log2 z - 32 * Z.of_nat (len b - 1))); lia.
Qed.
Lemma shl_exact b z s : denotes b z -> 0 <= s -> in_range (z * 2 ^ s) -> (z * 2 ^ s) mod Full < pw (len b) -> denotes (shl b s) (z * 2 ^ s).
Proof.
  intros D Hs R L. destruct (shl_facts b z s D Hs) as (E1 & E2 & E3 & E4 & E5). pose proof (d_len _ _ D) as Ln. pose proof Full_Half. pose proof Half_pos. assert (P : 1 <= 2 ^ s) by (pose proof (Z.pow_pos_nonneg 2 s); lia).
  assert (V : uval (data (shl b s)) = (z * 2 ^ s) mod Full).
  { rewrite E3. destruct (Z.lt_ge_cases z 0) as [N|N].
    - assert (len b = 256%nat) as ->. { destruct (len_bounds b z D) as (B1 & _ & _). cbv zeta in B1. rewrite (mod_Full_range z (d_range _ _ D)) in B1. destruct (Z.ltb_spec z 0); [|lia]. pose proof (d_range _ _ D) as Rz. unfold in_range in Rz.
        destruct (Nat.eq_dec (len b) 256) as [|Ne]; [auto|]. pose proof (pw_le (len b) 255 ltac:(lia)). pose proof Half_top. lia. }
      rewrite <- Full_pw. apply Z.mul_mod_idemp_l. lia.
    - rewrite (Z.mod_small z) by (pose proof (d_range _ _ D) as Rz; unfold in_range in Rz; lia). unfold in_range in R. rewrite (Z.mod_small _ Full) in L |- * by nia. apply Z.mod_small. nia. }
  constructor; auto; rewrite ?E4; auto; try lia.
  destruct (d_last _ _ D) as [T|T]; [auto|]. right. intros Z0. assert (T0 : tail0 (len b - 1) (data (shl b s))) by (intros i Hi; destruct (Nat.eq_dec i (len b - 1)) as [->|]; [exact Z0|apply E5; lia]).
  pose proof (uval_low _ _ T0) as U. pose proof (uval_bound _ (firstn_words (len b - 1) _ E2)) as Bd. rewrite <- U, firstn_length, E1 in Bd. replace (Nat.min (len b - 1) 256) with (len b - 1)%nat in Bd by lia. rewrite V in Bd.
  destruct (len_bounds b z D) as (B1 & B2 & B3). cbv zeta in *. destruct B2 as [B2|B2].
  - assert (Z1 : z mod Full < BB) by (rewrite B2 in B1; exact (proj2 B1)). rewrite B2 in T. change (1 - 1)%nat with O in T. rewrite B2 in B3, Bd. change (1 - 1)%nat with O in *. rewrite pw_0 in *. change (firstn 0 (data b)) with (@nil Z) in B3. change (uval []) with 0 in B3.
    assert (z * 2 ^ s = 0) by (apply zero_cases; [exact R|lia]). assert (z = 0) by nia. subst z. rewrite Zmod_0_l in B3. lia.
  - rewrite (mod_Full_range _ R) in Bd. rewrite (mod_Full_range z (d_range _ _ D)) in *. pose proof (d_range _ _ D) as Rz. unfold in_range in *. destruct (Z.ltb_spec (z * 2 ^ s) 0), (Z.ltb_spec z 0); try nia.
    pose proof (pw_le (len b - 1) 255 ltac:(lia)). pose proof Half_top. pose proof (pw_pos 255). lia.
Qed.

(** Division. *)
Lemma lead_pos f : forall v m, 0 <= lead f v m. Proof. induction f; intros v m; cbn [lead]; [lia|]. destruct (_ && _); [pose proof (IHf v (m / 2)); lia|lia]. Qed.
Lemma mbd_zero b y : denotes b y -> (2 <= len b)%nat -> exists r, multi_byte_divide ZERO b = Ok (ZERO, r).
Proof.
  intros D L. unfold multi_byte_divide. set (shift := lead _ _ _). pose proof (lead_pos 32 (nth (len b - 1) (data b) 0) 2147483648 : 0 <= shift) as Hs. clearbody shift.
  cbn [len ZERO]. change (Nat.ltb MAX_LEN (1 + 1)) with false. change (firstn 1 (data ZERO) ++ zeros (MAX_LEN - 1)) with (zeros 256). change (1 + 1)%nat with 2%nat.
  destruct (shift_left (zeros 256) 2 shift) as [r n] eqn:E. apply shift_left_spec in E; auto; [|apply zeros_len|apply zeros_words|lia|intros i _; apply nth_repeat]. destruct E as (_ & _ & _ & E4 & _).
  destruct (shl_facts b y shift D Hs) as (_ & _ & _ & S4 & _). cbv zeta. rewrite S4. replace (n - len b)%nat with O by lia. cbn [mbd_loop bind]. change (reduce_len ([] ++ zeros (MAX_LEN - length (@nil Z))) (length (@nil Z))) with ZERO.
  destruct (shift_right r n shift) as [r' n']. eexists. reflexivity.
Qed.
Lemma len_one_iff b y : denotes b y -> 0 <= y -> Nat.eqb (len b) 1 = (y <? BB).
Proof.
  intros D P. destruct (Z.ltb_spec y BB) as [L|L].
  - rewrite (small_len b y D) by lia. reflexivity.
  - apply Nat.eqb_neq. intros E. pose proof (one_word b y D P E). lia.
Qed.
Lemma signed (s : bool) r z : gives r z -> z <> - Half -> gives (do q <- r; if s then negate q else Ok q) (if s then - z else z).
Proof.
  intros (q & -> & D) N. cbn [bind]. destruct s; [apply negate_spec; auto|]. exists q. auto.
Qed.
Lemma div_spec a b x y : denotes a x -> denotes b y -> x <> - Half -> y <> - Half -> y <> 0 -> (Z.abs y < BB \/ Z.abs x < Z.abs y) -> gives (div a b) (Z.quot x y).
Proof.
  intros Da Db Nx Ny Y0 C. unfold div. destruct (abs_part a x Da) as [PA _]. destruct (abs_part b y Db) as [PB _]. rewrite (neg_iff a x Da) in *. rewrite (neg_iff b y Db) in *. pose proof Half_pos.
  destruct (PA Nx) as (a1 & -> & Da1). destruct (PB Ny) as (b1 & -> & Db1). cbn [bind]. rewrite (proj1 (order_spec a1 b1 _ _ Da1 Db1)). rewrite (len_one_iff b1 _ Db1) by lia.
  set (a2 := if Z.abs x <? Z.abs y then ZERO else a1).
  assert (Q : exists q r, (if Z.abs y <? BB then single_byte_divide a2 b1 else multi_byte_divide a2 b1) = Ok (q, r) /\ denotes q (Z.abs x / Z.abs y)).
  { unfold a2. destruct (Z.ltb_spec (Z.abs y) BB) as [L|L].
    - destruct (Z.ltb_spec (Z.abs x) (Z.abs y)) as [M|M].
      + destruct (sbd_spec ZERO b1 0 (Z.abs y) denotes_zeros Db1) as (q & r & E1 & E2 & _); [lia|lia|]. exists q, r. split; [exact E1|]. rewrite Z.div_small by lia. rewrite Z.div_0_l in E2 by lia. exact E2.
      + destruct (sbd_spec a1 b1 _ _ Da1 Db1) as (q & r & E1 & E2 & _); [lia|lia|]. eauto.
    - destruct C as [C|C]; [lia|]. destruct (Z.ltb_spec (Z.abs x) (Z.abs y)); [|lia].
      destruct (mbd_zero b1 _ Db1) as (r & E); [|exists ZERO, r; split; [exact E|]; rewrite Z.div_small by lia; exact denotes_zeros].
      pose proof (len_one_iff b1 _ Db1 ltac:(lia)) as N. destruct (Z.ltb_spec (Z.abs y) BB); [lia|]. apply Nat.eqb_neq in N. pose proof (d_len _ _ Db1). lia. }
  destruct Q as (q & r & -> & Dq). cbn [bind]. assert (G : gives (Ok q) (Z.abs x / Z.abs y)) by (exists q; auto). apply (signed (xorb (x <? 0) (y <? 0))) in G; [|pose proof (Z.div_pos (Z.abs x) (Z.abs y)); lia]. cbn [bind] in G.
  rewrite Z.quot_div by lia. replace (Z.sgn x * Z.sgn y * (Z.abs x / Z.abs y)) with (if xorb (x <? 0) (y <? 0) then - (Z.abs x / Z.abs y) else Z.abs x / Z.abs y); [exact G|].
  destruct (Z.ltb_spec x 0), (Z.ltb_spec y 0); cbn [xorb].
  - rewrite !Z.sgn_neg by lia. lia.
  - rewrite (Z.sgn_neg x), (Z.sgn_pos y) by lia. lia.
  - rewrite (Z.sgn_neg y) by lia. destruct (Z.eq_dec x 0) as [->|]; [rewrite Z.div_0_l by lia; reflexivity|]. rewrite (Z.sgn_pos x) by lia. lia.
  - rewrite (Z.sgn_pos y) by lia. destruct (Z.eq_dec x 0) as [->|]; [rewrite Z.div_0_l by lia; reflexivity|]. rewrite (Z.sgn_pos x) by lia. lia.
Qed.
Lemma mod_spec a b x y : denotes a x -> denotes b y -> x <> - Half -> y <> - Half -> y <> 0 -> (Z.abs y < BB \/ Z.abs x < Z.abs y) -> gives (mod_ a b) (Z.rem x y).
Proof.
  intros Da Db Nx Ny Y0 C. unfold mod_. destruct (abs_part a x Da) as [PA _]. destruct (abs_part b y Db) as [PB _]. rewrite (neg_iff a x Da) in *. rewrite (neg_iff b y Db) in *. pose proof Half_pos.
  destruct (PA Nx) as (a1 & -> & Da1). destruct (PB Ny) as (b1 & -> & Db1). cbn [bind]. rewrite (proj1 (order_spec a1 b1 _ _ Da1 Db1)). rewrite (len_one_iff b1 _ Db1) by lia.
  assert (R : Z.rem x y = if x <? 0 then - (Z.abs x mod Z.abs y) else Z.abs x mod Z.abs y).
  { rewrite Z.rem_mod by lia. destruct (Z.ltb_spec x 0); [rewrite Z.sgn_neg by lia; lia|]. destruct (Z.eq_dec x 0) as [->|]; [rewrite Zmod_0_l; reflexivity|]. rewrite Z.sgn_pos by lia. lia. }
  rewrite R. pose proof (Z.mod_pos_bound (Z.abs x) (Z.abs y)). destruct (Z.ltb_spec (Z.abs x) (Z.abs y)).
  - rewrite Z.mod_small by lia. assert (G : gives (Ok a1) (Z.abs x)) by (exists a1; auto). apply (signed (x <? 0)) in G; [exact G|lia].
  - destruct (Z.ltb_spec (Z.abs y) BB) as [L|L]; [|lia]. destruct (sbd_spec a1 b1 _ _ Da1 Db1) as (q & r & E1 & _ & E2 & _); [lia|lia|]. rewrite E1. cbn [bind].
    assert (G : gives (Ok r) (Z.abs x mod Z.abs y)) by (exists r; auto). apply (signed (x <? 0)) in G; [exact G|lia].
Qed.
Lemma div_zero a b x : denotes a x -> denotes b 0 -> stops (div a b) /\ stops (mod_ a b).
Proof.
  intros Da Db. assert (b = ZERO) as -> by (apply (denotes_inj _ _ 0); auto; exact denotes_zeros). unfold div, mod_. pose proof Half_pos. rewrite (neg_iff ZERO 0 Db). change (0 <? 0) with false. cbv iota. cbn [bind].
  assert (S : forall a' x', denotes a' x' -> 0 <= x' -> single_byte_divide a' ZERO = Stop DivZero).
  { intros a' x' D' P. unfold single_byte_divide. cbv zeta. change (nth 0 (data ZERO) 0) with 0. pose proof (nth_word (data a') (find_length (data a') (len a') - 1) (d_words _ _ D')) as W.
    destruct (Z.leb_spec 0 (nth (find_length (data a') (len a') - 1) (data a') 0)); [reflexivity|lia]. }
  destruct (Z.eq_dec x (- Half)) as [E|N].
  - destruct (abs_part a x Da) as [_ PA]. rewrite (PA E). cbn [bind]. split; exists Assert; split; (reflexivity || discriminate).
  - destruct (abs_part a x Da) as [PA _]. destruct (PA N) as (a1 & -> & Da1). cbn [bind]. rewrite (proj1 (order_spec a1 ZERO _ _ Da1 denotes_zeros)). destruct (Z.ltb_spec (Z.abs x) 0); [lia|]. change (Nat.eqb (len ZERO) 1) with true. cbv iota.
    rewrite (S a1 _ Da1) by lia. cbn [bind]. split; exists DivZero; split; (reflexivity || discriminate).
Qed.
