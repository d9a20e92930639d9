From Coq Require Import ZArith List Bool Lia ZifyBool.
From Verif Require Import BitAccModel BitAccSpec BitAccProofs BitAccProofs2.
Import ListNotations.
Open Scope Z_scope.

Lemma get_nth m i : 0 <= i < Z.of_nat (length m) -> get m i = Some (nth (Z.to_nat i) m 0).
Proof. intros H. unfold get. replace (i <? 0) with false by lia. apply nth_error_nth'. lia. Qed.
Lemma put_nat_ok : forall m i v, (i < length m)%nat -> exists m', put_nat m i v = Some m' /\ length m' = length m /\
  forall j, nth j m' 0 = if Nat.eqb j i then v else nth j m 0.
Proof.
  induction m as [|b m IH]; intros i v H; [cbn in H; lia|]. destruct i as [|i]; cbn [put_nat].
  - exists (v :: m). split; [reflexivity|]. split; [reflexivity|]. intros [|j]; reflexivity.
  - destruct (IH i v ltac:(cbn [length] in H; lia)) as (m' & E & L & N). rewrite E. exists (b :: m'). split; [reflexivity|]. split; [cbn [length]; lia|].
    intros [|j]; cbn [nth Nat.eqb]; [reflexivity|apply N].
Qed.
Lemma put_ok m i v : bytes m -> 0 <= v < 2 ^ 8 -> 0 <= i < Z.of_nat (length m) -> exists m', put m i v = Some m' /\ length m' = length m /\ bytes m' /\
  forall p, 0 <= p -> Z.testbit (of_bytes m') p = if p / 8 =? i then Z.testbit v (p mod 8) else Z.testbit (of_bytes m) p.
Proof.
  intros B V H. unfold put. replace (i <? 0) with false by lia. destruct (put_nat_ok m (Z.to_nat i) v ltac:(lia)) as (m' & E & L & N).
  exists m'. split; [exact E|]. split; [exact L|].
  assert (B' : bytes m').
  { apply Forall_forall. intros x Hx. apply (In_nth _ _ 0) in Hx. destruct Hx as (j & Hj & <-). rewrite N. destruct (Nat.eqb j (Z.to_nat i)); [auto|].
    unfold bytes in B. rewrite Forall_forall in B. apply B. apply nth_In. lia. }
  split; [exact B'|]. intros p Hp. rewrite !tb_of_bytes by auto. rewrite N. pose proof (Z.div_pos p 8 Hp ltac:(lia)).
  destruct (p / 8 =? i) eqn:Q.
  - replace (Nat.eqb _ _) with true by (symmetry; apply Nat.eqb_eq; lia). reflexivity.
  - replace (Nat.eqb _ _) with false by (symmetry; apply Nat.eqb_neq; lia). reflexivity.
Qed.
Lemma nth_byte m i : bytes m -> 0 <= nth i m 0 < 2 ^ 8.
Proof.
  intros B. destruct (Nat.lt_ge_cases i (length m)) as [L|L]; [|rewrite nth_overflow by lia; lia]. unfold bytes in B. rewrite Forall_forall in B. apply B, nth_In; auto.
Qed.
(** Bit [j] of byte [i] is bit [8 * i + j] of the number. *)
Lemma tb_byte m i j : bytes m -> 0 <= i -> 0 <= j < 8 -> Z.testbit (nth (Z.to_nat i) m 0) j = Z.testbit (of_bytes m) (8 * i + j).
Proof.
  intros B Hi Hj. rewrite tb_of_bytes by (auto; lia). replace (8 * i + j) with (j + i * 8) by lia. rewrite Z.div_add, Z.mod_add, Z.div_small, Z.mod_small by lia. reflexivity.
Qed.

Section Read.
Variables (m : list Z) (f : Field).
Hypotheses (HB : bytes m) (HI : in_array m f).
Let N := of_bytes m.
Let w := f_width f.
Let sb := f_start f / 8.
Lemma starts : f_start f = 8 * sb + f_start f mod 8 /\ 0 <= f_start f mod 8 < 8 /\ 0 <= sb.
Proof.
  destruct HI as ((F1 & _) & _). unfold sb. pose proof (Z.div_mod (f_start f) 8 ltac:(lia)). pose proof (Z.mod_pos_bound (f_start f) 8 ltac:(lia)).
  pose proof (Z.div_pos (f_start f) 8 ltac:(lia) ltac:(lia)). lia.
Qed.
Lemma read_bytes_ok : forall n i res, sb <= i -> i + Z.of_nat n <= Z.of_nat (length m) -> 0 <= res < 2 ^ w ->
  (forall j, 0 <= j < w -> Z.testbit res j = (f_start f + j <? 8 * i) && Z.testbit N (f_start f + j)) ->
  exists r, read_bytes 1 m w sb (f_start f mod 8) i n res = Some r /\ 0 <= r < 2 ^ w /\
    forall j, 0 <= j < w -> Z.testbit r j = (f_start f + j <? 8 * (i + Z.of_nat n)) && Z.testbit N (f_start f + j).
Proof.
  destruct starts as (S1 & S2 & S3). destruct HI as ((F1 & F2 & F3 & _) & W1 & W2). fold w in W1, W2, F3.
  induction n as [|n IH]; intros i res Hi Hn R H; cbn [read_bytes].
  - exists res. rewrite Z.add_0_r. auto.
  - rewrite Z.mul_1_l, get_nth by lia. cbn [bind]. set (b := nth (Z.to_nat i) m 0). pose proof (nth_byte m (Z.to_nat i) HB) as Rb. fold b in Rb.
    assert (Rw : 0 <= b < 2 ^ w) by (pose proof (Z.pow_le_mono_r 2 8 w ltac:(lia) ltac:(lia)); lia).
    replace (zext_trunc w b) with b by (unfold zext_trunc; rewrite Z.mod_small; auto).
    set (c := 8 * (i - sb) - f_start f mod 8). set (e := if c <? 0 then _ else _).
    assert (E : 0 <= e < 2 ^ w /\ forall j, 0 <= j < w -> Z.testbit e j = (8 * i <=? f_start f + j) && (f_start f + j <? 8 * (i + 1)) && Z.testbit N (f_start f + j)).
    { assert (TB : forall j, 8 * i <= j -> Z.testbit b (j - 8 * i) = (j <? 8 * (i + 1)) && Z.testbit N j).
      { intros j Hj. destruct (j <? 8 * (i + 1)) eqn:Q; cbn [andb].
        - unfold b. rewrite tb_byte by (auto; lia). unfold N. f_equal. lia.
        - apply (tb_high 8); lia. }
      unfold e. destruct (c <? 0) eqn:C1; [|destruct (0 <? c) eqn:C2].
      - split; [apply lshr_range; lia|]. intros j Hj. rewrite tb_lshr by lia. replace (j + - c) with (f_start f + j - 8 * i) by lia.
        rewrite TB by lia. replace (8 * i <=? f_start f + j) with true by lia. reflexivity.
      - split; [apply shl_range; lia|]. intros j Hj. rewrite tb_shl by lia. replace (j <? w) with true by lia. cbn [andb].
        destruct (8 * i <=? f_start f + j) eqn:Q; cbn [andb].
        + replace (j - c) with (f_start f + j - 8 * i) by lia. apply TB. lia.
        + apply Z.testbit_neg_r. lia.
      - split; [auto|]. intros j Hj. replace j with (f_start f + j - 8 * i) at 1 by lia. rewrite TB by lia. replace (8 * i <=? f_start f + j) with true by lia. reflexivity. }
    destruct E as [E1 E2]. destruct (IH (i + 1) (Z.lor e res)) as (r & A1 & A2 & A3); [lia|lia|apply lor_range; lia| |].
    + intros j Hj. rewrite Z.lor_spec, E2, H by lia. destruct (Z.testbit N (f_start f + j)); rewrite ?andb_true_r, ?andb_false_r; lia.
    + exists r. split; [exact A1|]. split; [exact A2|]. intros j Hj. rewrite A3 by lia. f_equal. lia.
Qed.
End Read.

Lemma power8 n : 8 < n <= 128 -> is_power_of_two n = true -> n mod 8 = 0.
Proof.
  intros H P. assert (C : forallb (fun k => let z := Z.of_nat k in negb (8 <? z) || negb (is_power_of_two z) || (z mod 8 =? 0)) (seq 0 129) = true) by (vm_compute; reflexivity).
  rewrite forallb_forall in C. specialize (C (Z.to_nat n) ltac:(apply in_seq; lia)). cbv zeta in C. rewrite Z2Nat.id in C by lia. rewrite P in C. lia.
Qed.
Lemma bytes_of_app a b : forall x, bytes_of (a + b) x = bytes_of a x ++ bytes_of b (x / 2 ^ (8 * Z.of_nat a)).
Proof.
  induction a as [|a IH]; intros x; cbn [Nat.add bytes_of app]; [rewrite Z.mul_0_r, Z.pow_0_r, Z.div_1_r; reflexivity|].
  rewrite IH. do 2 f_equal. f_equal. rewrite Z.div_div by (try apply pow_pos; lia). f_equal. rewrite <- Z.pow_add_r by lia. f_equal. lia.
Qed.
Lemma bytes_of_zero n : bytes_of n 0 = repeat 0 n.
Proof. induction n; cbn [bytes_of repeat]; [reflexivity|]. rewrite Z.mod_0_l, Z.div_0_l, IHn by lia. reflexivity. Qed.
Lemma bytes_of_mod n : forall x, bytes_of n (x mod 2 ^ (8 * Z.of_nat n)) = bytes_of n x.
Proof. intros x. rewrite <- of_bytes_of. rewrite <- (bytes_of_length n x) at 1. apply bytes_of_of, bytes_of_bytes. Qed.
Lemma of_bytes_zeros l n : of_bytes (l ++ repeat 0 n) = of_bytes l.
Proof.
  induction l as [|b l IH]; cbn [app of_bytes]; [|rewrite IH; reflexivity]. induction n; cbn [repeat of_bytes]; lia.
Qed.
Lemma rev_repeat (n : nat) : rev (repeat 0 n) = repeat 0 n.
Proof. induction n; [reflexivity|]. cbn [repeat rev]. rewrite IHn. clear. induction n; [reflexivity|]. cbn [repeat app]. rewrite IHn. reflexivity. Qed.
Lemma bswap_non_integral_ok w x n : 8 < n <= w -> w <= 128 -> w mod 8 = 0 -> n mod 8 = 0 ->
  bswap w (shl w x (w - n)) = of_bytes (rev (bytes_of (Z.to_nat (n / 8)) x)).
Proof.
  intros H1 H2 M P. unfold bswap.
  set (a := Z.to_nat ((w - n) / 8)). set (b := Z.to_nat (n / 8)).
  assert (DA : 8 * Z.of_nat a = w - n).
  { unfold a. apply bits8; [lia|]. rewrite Zminus_mod, M, P. reflexivity. }
  assert (DB : 8 * Z.of_nat b = n) by (unfold b; apply bits8; [lia|auto]).
  assert (DW : Z.to_nat (w / 8) = (a + b)%nat) by (pose proof (bits8 w ltac:(lia) M); lia). rewrite DW, bytes_of_app, rev_app_distr.
  assert (E : shl w x (w - n) = (x mod 2 ^ n) * 2 ^ (w - n)).
  { unfold shl. replace (w <=? w - n) with false by lia. rewrite Z.shiftl_mul_pow2 by lia. replace (2 ^ w) with (2 ^ n * 2 ^ (w - n)) by (rewrite <- Z.pow_add_r by lia; f_equal; lia).
    rewrite Zmult_mod_distr_r. reflexivity. }
  rewrite E, DA, Z.div_mul by (pose proof (pow_pos (w - n)); lia).
  assert (E0 : bytes_of a (x mod 2 ^ n * 2 ^ (w - n)) = repeat 0 a).
  { rewrite <- bytes_of_mod, DA, Z.mod_mul by (pose proof (pow_pos (w - n)); lia). apply bytes_of_zero. }
  rewrite E0, rev_repeat, of_bytes_zeros. rewrite <- DB at 1. rewrite bytes_of_mod. reflexivity.
Qed.
Lemma ordered_range swap f x : 0 <= f_start f <= f_end f -> (swap = true -> 8 < len f -> len f mod 8 = 0) -> 0 <= x < 2 ^ len f ->
  0 <= ordered swap f x < 2 ^ len f.
Proof.
  intros F P X. unfold ordered. destruct (swap && _) eqn:E; [|auto]. apply andb_true_iff in E. destruct E as [-> E].
  pose proof (of_bytes_range _ (bytes_rev _ (bytes_of_bytes (Z.to_nat (len f / 8)) x))) as R. rewrite rev_length, bytes_of_length, bits8 in R; [exact R|unfold len in *; lia|].
  apply P; [reflexivity|lia].
Qed.
(** The byte swap of the code. *)
Lemma swap_word (swap : bool) w f x : len f <= w -> w <= 128 -> w mod 8 = 0 -> 0 <= f_start f <= f_end f -> 0 <= x < 2 ^ w ->
  (swap = true -> 8 < len f -> is_power_of_two (len f) = true) ->
  exists y, (if swap then bswap_non_integral w x (len f) else Some x) = Some y /\ 0 <= y < 2 ^ w /\
            y mod 2 ^ len f = ordered swap f (x mod 2 ^ len f).
Proof.
  intros H1 H2 M F X P. unfold ordered. destruct swap; cbn [andb]; [|exists x; auto]. unfold bswap_non_integral. destruct (len f <=? 8) eqn:E.
  - exists x. replace (8 <? len f) with false by lia. auto.
  - replace (8 <? len f) with true by lia. rewrite (P eq_refl) by lia. cbn [negb]. eexists. split; [reflexivity|].
    assert (M8 : len f mod 8 = 0) by (apply power8; [lia|apply P; [reflexivity|lia]]).
    rewrite bswap_non_integral_ok by (auto; lia).
    pose proof (of_bytes_range _ (bytes_rev _ (bytes_of_bytes (Z.to_nat (len f / 8)) x))) as R.
    rewrite rev_length, bytes_of_length, bits8 in R by lia.
    split; [pose proof (Z.pow_le_mono_r 2 (len f) w ltac:(lia) ltac:(lia)); lia|].
    rewrite Z.mod_small by auto. do 2 f_equal. symmetry. rewrite <- (bits8 (len f)) at 2 by lia. apply bytes_of_mod.
Qed.
Lemma finish_read w f r : 0 <= f_start f <= f_end f -> len f <= f_width f -> w = f_width f -> 0 <= r < 2 ^ w -> 
  (if f_signed f then (let top := w - f_end f + f_start f - 1 in if negb (top =? 0) then ashr w (shl w r top) top else r) else mask_low_bits w r (f_end f - f_start f + 1))
  = value_of f (r mod 2 ^ len f).
Proof.
  intros F1 F3 -> R. set (w := f_width f) in *. assert (0 < w) by (unfold len in *; lia). apply Z.bits_inj'. intros i Hi.
  rewrite tb_value_of by (auto; apply mod_range; unfold len; lia). rewrite !tb_mod by (unfold len; lia). destruct (f_signed f).
  - cbv zeta. set (top := w - f_end f + f_start f - 1). unfold len in *.
    assert (E : (if negb (top =? 0) then ashr w (shl w r top) top else r) = ashr w (shl w r top) top).
    { destruct (top =? 0) eqn:T; [|reflexivity]. cbn [negb]. replace top with 0 by lia. apply Z.bits_inj'. intros j Hj.
      rewrite tb_ashr by (lia || apply shl_range; lia). rewrite !tb_shl by lia. rewrite Z.add_0_r, Z.sub_0_r. destruct (j <? w) eqn:J; cbn [andb]; [reflexivity|]. apply (tb_high w); lia. }
    rewrite E, tb_ashr by (lia || apply shl_range; lia). rewrite !tb_shl by lia. fold w. destruct (i <? w) eqn:W; [|reflexivity]. cbn [andb].
    replace (i + top <? w) with (i <? f_end f - f_start f + 1) by lia. replace (w - 1 <? w) with true by lia.
    replace (f_end f - f_start f + 1 - 1 <? f_end f - f_start f + 1) with true by lia. cbn [andb].
    destruct (i <? f_end f - f_start f + 1); cbn [andb]; f_equal; lia.
  - rewrite tb_mask by lia. reflexivity.
Qed.
Lemma extract_array_ok swap m f : bytes m -> in_array m f -> (swap = true -> 8 < len f -> is_power_of_two (len f) = true) ->
  extract_array 1 swap m f = Some (value_of f (if f_bool f then field (of_bytes m) f else ordered swap f (field (of_bytes m) f))).
Proof.
  intros B HI P. pose proof (starts m f HI) as (S1 & S2 & S3). pose proof HI as ((F1 & F2 & F3 & F4) & W1 & W2).
  pose proof (Z.div_mod (f_end f) 8 ltac:(lia)) as DE. pose proof (Z.mod_pos_bound (f_end f) 8 ltac:(lia)) as ME.
  unfold extract_array. destruct (f_bool f).
  - destruct (F4 eq_refl) as [F5 F6]. rewrite Z.mul_1_l, get_nth by lia. cbn [bind]. f_equal. unfold value_of. rewrite F6.
    apply Z.bits_inj'. intros i Hi. rewrite tb_field by lia. change 2 with (2 ^ 1) at 1. rewrite tb_mod by lia. unfold len. replace (f_end f - f_start f + 1) with 1 by lia.
    destruct (i <? 1) eqn:E; [|reflexivity]. cbn [andb]. rewrite tb_lshr by (try apply nth_byte; auto; lia). replace i with 0 by lia.
    rewrite tb_byte by (auto; lia). f_equal. lia.
  - destruct (read_bytes_ok m f B HI (Z.to_nat (f_end f / 8 - f_start f / 8 + 1)) (f_start f / 8) 0) as (r & A1 & A2 & A3); [lia|lia|pose proof (pow_pos (f_width f)); lia| |].
    { intros j Hj. rewrite Z.bits_0. replace (f_start f + j <? 8 * (f_start f / 8)) with false by lia. reflexivity. }
    cbv zeta. rewrite A1. cbn [bind].
    destruct (swap_word swap (f_width f) f r) as (y & Y1 & Y2 & Y3); auto; [lia|]. unfold len in Y1 at 1. rewrite Y1. cbn [bind]. f_equal.
    rewrite finish_read by auto. f_equal. rewrite Y3. f_equal.
    apply Z.bits_inj'. intros i Hi. rewrite tb_mod, tb_field by (unfold len; lia). destruct (i <? len f) eqn:L; [|reflexivity]. cbn [andb]. unfold len in *.
    rewrite A3 by lia. replace (f_start f + i <? _) with true by lia. cbn [andb]. f_equal. lia.
Qed.
