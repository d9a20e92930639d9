From Coq Require Import ZArith Bool List Lia ZifyBool.
From Verif Require Import Mach ListAux BitsModel BitsSpec.
Import ListNotations.
Open Scope Z_scope.

Lemma pow2_bit r k : 0 <= r -> Z.testbit (2 ^ r) k = (k =? r).
Proof. intros H. destruct (Z.eqb_spec k r) as [ -> |N]; [apply Z.pow2_bits_true; exact H|apply Z.pow2_bits_false; lia]. Qed.
Lemma land_pow2 x r : 0 <= r -> (Z.land x (2 ^ r) =? 0) = negb (Z.testbit x r).
Proof.
  intros H. destruct (Z.testbit x r) eqn:E.
  - apply Z.eqb_neq. intros K. assert (T : Z.testbit (Z.land x (2 ^ r)) r = true) by (rewrite Z.land_spec, E, pow2_bit, Z.eqb_refl by lia; reflexivity). rewrite K, Z.bits_0 in T. discriminate.
  - apply Z.eqb_eq. apply Z.bits_inj'. intros k Hk. rewrite Z.land_spec, Z.bits_0, pow2_bit by lia. destruct (Z.eqb_spec k r) as [ -> |]; [rewrite E; reflexivity|apply andb_false_r].
Qed.
Lemma compl_bits w x k : 0 <= w -> 0 <= x < 2 ^ w -> 0 <= k -> Z.testbit (2 ^ w - 1 - x) k = (k <? w) && negb (Z.testbit x k).
Proof.
  intros Hw Hx Hk. replace (2 ^ w - 1 - x) with (Z.lnot x mod 2 ^ w).
  - destruct (Z.ltb_spec k w); [rewrite Z.mod_pow2_bits_low, Z.lnot_spec by lia; reflexivity|rewrite Z.mod_pow2_bits_high by lia; reflexivity].
  - unfold Z.lnot, Z.pred. symmetry. apply (Z.mod_unique _ _ (-1)); lia.
Qed.
Lemma high_bits w x k : 0 <= w -> 0 <= x < 2 ^ w -> w <= k -> Z.testbit x k = false.
Proof. intros Hw Hx Hk. rewrite <- (Z.mod_small x (2 ^ w)) by exact Hx. apply Z.mod_pow2_bits_high. lia. Qed.
Lemma bits_range w x : 0 <= w -> 0 <= x -> (forall k, w <= k -> Z.testbit x k = false) -> x < 2 ^ w.
Proof.
  intros Hw Hx H. destruct (Z.eq_dec x 0) as [ -> |N]; [apply Z.pow_pos_nonneg; lia|]. apply Z.log2_lt_pow2; [lia|]. destruct (Z.lt_ge_cases (Z.log2 x) w); [assumption|].
  specialize (H (Z.log2 x) H0). rewrite Z.bit_log2 in H by lia. discriminate.
Qed.

Definition bit (w : Z) (d : list Z) (j : Z) : bool := match nth_error d (Z.to_nat (j / w)) with Some x => Z.testbit x (j mod w) | None => false end.
Definition words (w : Z) (d : list Z) : Prop := Forall (fun x => 0 <= x < 2 ^ w) d.
Section W.
Implicit Types (d e r : list Z).
Variable w : Z.
Hypothesis Hw : 0 < w <= 32.

Lemma shl1_ok i : shl1 (i mod w) = Ok (2 ^ (i mod w)).
Proof. unfold shl1. pose proof (Z.mod_pos_bound i w ltac:(lia)). replace ((0 <=? i mod w) && (i mod w <? 32)) with true by lia. reflexivity. Qed.
Lemma get_word d i : 0 <= i -> i / w < zlen d -> exists x, get d (i / w) = Ok x /\ nth_error d (Z.to_nat (i / w)) = Some x.
Proof. intros Hi Hl. assert (0 <= i / w) by (apply Z.div_pos; lia). destruct (get_ok d (i / w) ltac:(lia)) as (x & E). exists x. split; [exact E|]. apply get_inv in E. tauto. Qed.
Lemma words_at d n x : words w d -> nth_error d n = Some x -> 0 <= x < 2 ^ w.
Proof. intros H E. apply nth_error_In in E. unfold words in H. rewrite Forall_forall in H. auto. Qed.
Lemma get_bit d i : 0 <= i -> i / w < zlen d -> bs_get w d i = Ok (bit w d i).
Proof.
  intros Hi Hl. destruct (get_word d i Hi Hl) as (x & E & N). unfold bs_get, bit. rewrite E, N. cbn [bind]. rewrite shl1_ok. cbn [bind]. pose proof (Z.mod_pos_bound i w ltac:(lia)). rewrite land_pow2 by lia. rewrite negb_involutive. reflexivity.
Qed.
Lemma same_bit i j : 0 <= i -> 0 <= j -> (j =? i) = (j / w =? i / w) && (j mod w =? i mod w).
Proof. intros Hi Hj. pose proof (Z.div_mod i w ltac:(lia)). pose proof (Z.div_mod j w ltac:(lia)). destruct (Z.eqb_spec j i) as [ -> |N]; [rewrite !Z.eqb_refl; reflexivity|]. destruct (Z.eqb_spec (j / w) (i / w)) as [E|]; [|reflexivity]. destruct (Z.eqb_spec (j mod w) (i mod w)) as [E'|]; [|reflexivity]. exfalso. apply N. rewrite H0, E, E'. lia. Qed.
Lemma words_upd d n x : words w d -> 0 <= x < 2 ^ w -> words w (upd d n x).
Proof. intros H Hx. revert n. induction H as [|y d Hy Hd IH]; intros n; [constructor|]. destruct n as [|n]; cbn [upd]; constructor; auto; apply IH. Qed.
Lemma upd_bit d i v f : 0 <= i -> i / w < zlen d -> words w d -> (forall x, nth_error d (Z.to_nat (i / w)) = Some x -> v = f x) ->
  forall j, 0 <= j -> bit w (upd d (Z.to_nat (i / w)) v) j = if j / w =? i / w then (match nth_error d (Z.to_nat (i / w)) with Some x => Z.testbit (f x) (j mod w) | None => false end) else bit w d j.
Proof.
  intros Hi Hl Hd Hv j Hj. unfold bit. rewrite nth_error_upd. assert (0 <= i / w) by (apply Z.div_pos; lia). assert (0 <= j / w) by (apply Z.div_pos; lia).
  destruct (Z.eqb_spec (j / w) (i / w)) as [E|N].
  - rewrite E, Nat.eqb_refl. destruct (get_word d i Hi Hl) as (x & _ & Nx). rewrite Nx. replace (Z.to_nat (i / w) <? length d)%nat with true by (unfold zlen in Hl; lia). rewrite (Hv x Nx). reflexivity.
  - replace (Z.to_nat (j / w) =? Z.to_nat (i / w))%nat with false by lia. reflexivity.
Qed.
Lemma set_bit d i : 0 <= i -> i / w < zlen d -> words w d -> exists d', bs_set w d i = Ok d' /\ zlen d' = zlen d /\ words w d' /\ forall j, 0 <= j -> bit w d' j = (j =? i) || bit w d j.
Proof.
  intros Hi Hl Hd. destruct (get_word d i Hi Hl) as (x & E & N). unfold bs_set. rewrite E. cbn [bind]. rewrite shl1_ok. cbn [bind]. assert (0 <= i / w) by (apply Z.div_pos; lia).
  unfold set. replace ((0 <=? i / w) && (i / w <? zlen d)) with true by lia. eexists. split; [reflexivity|]. pose proof (words_at d _ x Hd N) as Hx. pose proof (Z.mod_pos_bound i w ltac:(lia)) as Hm.
  assert (Hp : 0 <= 2 ^ (i mod w) < 2 ^ w) by (split; [apply Z.pow_nonneg; lia|apply Z.pow_lt_mono_r; lia]).
  split; [unfold zlen; rewrite upd_length; reflexivity|]. split.
  - apply words_upd; [exact Hd|]. split; [apply Z.lor_nonneg; lia|]. apply bits_range; [lia|apply Z.lor_nonneg; lia|]. intros k Hk. rewrite Z.lor_spec, !(high_bits w) by lia. reflexivity.
  - intros j Hj. rewrite (upd_bit d i _ (fun y => Z.lor y (2 ^ (i mod w))) Hi Hl Hd) by (congruence || assumption). rewrite (same_bit i j Hi Hj). destruct (Z.eqb_spec (j / w) (i / w)) as [Ej|]; [|reflexivity].
    rewrite N, Z.lor_spec, pow2_bit by lia. unfold bit. rewrite Ej, N. cbn [andb]. apply orb_comm.
Qed.
Lemma unset_bit d i : 0 <= i -> i / w < zlen d -> words w d -> exists d', bs_unset w d i = Ok d' /\ zlen d' = zlen d /\ words w d' /\ forall j, 0 <= j -> bit w d' j = negb (j =? i) && bit w d j.
Proof.
  intros Hi Hl Hd. destruct (get_word d i Hi Hl) as (x & E & N). unfold bs_unset. rewrite E. cbn [bind]. rewrite shl1_ok. cbn [bind]. assert (0 <= i / w) by (apply Z.div_pos; lia).
  unfold set. replace ((0 <=? i / w) && (i / w <? zlen d)) with true by lia. eexists. split; [reflexivity|]. pose proof (words_at d _ x Hd N) as Hx. pose proof (Z.mod_pos_bound i w ltac:(lia)) as Hm.
  assert (Hp : 0 <= 2 ^ (i mod w) < 2 ^ w) by (split; [apply Z.pow_nonneg; lia|apply Z.pow_lt_mono_r; lia]).
  split; [unfold zlen; rewrite upd_length; reflexivity|]. split.
  - apply words_upd; [exact Hd|]. split; [apply Z.land_nonneg; lia|]. apply bits_range; [lia|apply Z.land_nonneg; lia|]. intros k Hk. rewrite Z.land_spec, (high_bits w x) by lia. reflexivity.
  - intros j Hj. rewrite (upd_bit d i _ (fun y => Z.land y (2 ^ w - 1 - 2 ^ (i mod w))) Hi Hl Hd) by (congruence || assumption). rewrite (same_bit i j Hi Hj). destruct (Z.eqb_spec (j / w) (i / w)) as [Ej|]; [|reflexivity].
    pose proof (Z.mod_pos_bound j w ltac:(lia)). rewrite N, Z.land_spec, compl_bits, pow2_bit by lia. unfold bit. rewrite Ej, N. replace (j mod w <? w) with true by lia. cbn [andb]. apply andb_comm.
Qed.
Lemma map2_bit f g d e : zlen d = zlen e -> words w d -> words w e -> g false false = false ->
  (forall x y, 0 <= x < 2 ^ w -> 0 <= y < 2 ^ w -> 0 <= f x y /\ forall k, 0 <= k -> Z.testbit (f x y) k = g (Z.testbit x k) (Z.testbit y k)) ->
  exists r, bs_map2 f d e = Ok r /\ zlen r = zlen d /\ words w r /\ forall j, 0 <= j -> bit w r j = g (bit w d j) (bit w e j).
Proof.
  intros Hl Hd He G0 F.
  assert (K : exists r, bs_map2 f d e = Ok r /\ zlen r = zlen d /\ words w r /\ forall n, nth_error r n = match nth_error d n, nth_error e n with Some x, Some y => Some (f x y) | _, _ => None end).
  { revert e Hl He. induction Hd as [|x d Hx Hd IH]; intros e Hl He.
    - exists []. split; [reflexivity|]. split; [reflexivity|]. split; [constructor|]. intros n. destruct n; reflexivity.
    - destruct He as [|y e Hy He]; [rewrite zlen_cons in Hl; pose proof (zlen_nonneg d); change (zlen (@nil Z)) with 0 in Hl; lia|]. rewrite !zlen_cons in Hl. destruct (IH e ltac:(lia) He) as (r & Er & Lr & Wr & Nr).
      exists (f x y :: r). cbn [bs_map2]. rewrite Er. cbn [bind]. split; [reflexivity|]. split; [rewrite !zlen_cons; lia|]. destruct (F x y Hx Hy) as [F0 Fb]. split.
      + constructor; [|exact Wr]. split; [exact F0|]. apply bits_range; [lia|exact F0|]. intros k Hk. rewrite Fb, !(high_bits w) by lia. exact G0.
      + intros [|n]; [reflexivity|]. cbn [nth_error]. apply Nr. }
  destruct K as (r & Er & Lr & Wr & Nr). exists r. split; [exact Er|]. split; [exact Lr|]. split; [exact Wr|]. intros j Hj. unfold bit. rewrite Nr. pose proof (Z.mod_pos_bound j w ltac:(lia)).
  destruct (nth_error d (Z.to_nat (j / w))) as [x|] eqn:Ex.
  - destruct (nth_error e (Z.to_nat (j / w))) as [y|] eqn:Ey.
    + destruct (F x y (words_at d _ x Hd Ex) (words_at e _ y He Ey)) as [_ Fb]. apply Fb. lia.
    + exfalso. apply nth_error_None in Ey. assert (nth_error d (Z.to_nat (j / w)) <> None) as Q by congruence. apply nth_error_Some in Q. unfold zlen in Hl. lia.
  - destruct (nth_error e (Z.to_nat (j / w))) as [y|] eqn:Ey; [|symmetry; exact G0]. exfalso. apply nth_error_None in Ex. assert (nth_error e (Z.to_nat (j / w)) <> None) as Q by congruence. apply nth_error_Some in Q. unfold zlen in Hl. lia.
Qed.
Lemma bit_zero n j : bit w (repeat 0 n) j = false.
Proof. unfold bit. destruct (nth_error _ _) eqn:E; [|reflexivity]. apply nth_error_In, repeat_spec in E. subst. apply Z.bits_0. Qed.
Lemma words_zero n : words w (repeat 0 n).
Proof. unfold words. apply Forall_forall. intros x Hx. apply repeat_spec in Hx. subst. split; [lia|]. apply Z.pow_pos_nonneg; lia. Qed.
Lemma bit_high d j : 0 <= j -> zlen d * w <= j -> bit w d j = false.
Proof. intros Hj H. unfold bit. assert (zlen d <= j / w) by (apply Z.div_le_lower_bound; lia). replace (nth_error d (Z.to_nat (j / w))) with (@None Z); [reflexivity|]. symmetry. apply nth_error_None. unfold zlen in *. lia. Qed.
Lemma bit_cons x d j : 0 <= j -> bit w (x :: d) j = if j <? w then Z.testbit x j else bit w d (j - w).
Proof.
  intros Hj. unfold bit. destruct (Z.ltb_spec j w).
  - rewrite Z.div_small, Z.mod_small by lia. reflexivity.
  - assert (E : j / w = 1 + (j - w) / w) by (rewrite <- (Z.div_add_l 1 w (j - w)) by lia; f_equal; lia). assert (M : j mod w = (j - w) mod w) by (rewrite <- (Z.mod_add (j - w) 1 w) by lia; f_equal; lia).
    rewrite E, M. assert (0 <= (j - w) / w) by (apply Z.div_pos; lia). replace (Z.to_nat (1 + (j - w) / w)) with (S (Z.to_nat ((j - w) / w))) by lia. reflexivity.
Qed.
End W.
Lemma card_ext m m' n : (forall j, 0 <= j < Z.of_nat n -> m j = m' j) -> card m n = card m' n.
Proof. intros H. unfold card. f_equal. apply filter_ext_in. intros k Hk. apply in_seq in Hk. apply H. lia. Qed.
Lemma card_add m a b : card m (a + b) = card m a + card (fun j => m (j + Z.of_nat a)) b.
Proof.
  unfold card. rewrite seq_app, filter_app, zlen_app. f_equal. cbn [Nat.add]. unfold zlen. f_equal.
  assert (G : forall s, length (filter (fun k => m (Z.of_nat k)) (seq (a + s) b)) = length (filter (fun k => m (Z.of_nat k + Z.of_nat a)) (seq s b))).
  { induction b as [|b IH]; intros s; [reflexivity|]. cbn [seq filter]. replace (Z.of_nat (a + s)) with (Z.of_nat s + Z.of_nat a) by lia. rewrite <- Nat.add_succ_r. destruct (m _); cbn [length]; rewrite IH; reflexivity. }
  specialize (G 0%nat). rewrite Nat.add_0_r in G. exact G.
Qed.
Lemma card_false m n : (forall j, 0 <= j < Z.of_nat n -> m j = false) -> card m n = 0.
Proof. intros H. rewrite (card_ext m (fun _ => false)) by exact H. unfold card. induction (seq 0 n); [reflexivity|assumption]. Qed.
Lemma card_more m n n' : (n <= n')%nat -> (forall j, Z.of_nat n <= j < Z.of_nat n' -> m j = false) -> card m n' = card m n.
Proof. intros H F. replace n' with (n + (n' - n))%nat by lia. rewrite card_add, (card_false (fun j => m (j + Z.of_nat n))); [lia|]. intros j Hj. apply F. lia. Qed.
Lemma popcount_card w x : popcount w x = card (Z.testbit x) w.
Proof. induction w as [|w IH]; [reflexivity|]. cbn [popcount]. replace (S w) with (w + 1)%nat by lia. rewrite card_add, IH. unfold card at 3. cbn [seq filter]. change (Z.of_nat 0 + Z.of_nat w) with (Z.of_nat w). destruct (Z.testbit x (Z.of_nat w)); [change (zlen [0%nat]) with 1|change (zlen (@nil nat)) with 0]; lia. Qed.
Lemma fold_acc w (d : list Z) : forall a, fold_left (fun n x => n + popcount w x) d a = a + fold_left (fun n x => n + popcount w x) d 0.
Proof. induction d as [|x d IH]; intros a; cbn [fold_left]; [lia|]. rewrite IH, (IH (0 + _)). lia. Qed.
Lemma cardinality_card (w : nat) (d : list Z) : 0 < Z.of_nat w <= 32 -> bs_cardinality w d = card (bit (Z.of_nat w) d) (length d * w).
Proof.
  intros Hw. induction d as [|x d IH]; [reflexivity|]. unfold bs_cardinality in *. cbn [fold_left]. rewrite fold_acc, Z.add_0_l, IH, popcount_card. cbn [length Nat.mul]. rewrite card_add. f_equal.
  - apply card_ext. intros j Hj. rewrite bit_cons by lia. replace (j <? Z.of_nat w) with true by lia. reflexivity.
  - apply card_ext. intros j Hj. rewrite bit_cons by lia. replace (j + Z.of_nat w <? Z.of_nat w) with false by lia. f_equal. lia.
Qed.

(** ** BitSet *)
Lemma size_words size i : 0 < size -> 0 <= i < size -> i / 32 < (size + 32 - 1) / 32.
Proof. intros Hs Hi. apply Z.div_lt_upper_bound; [lia|]. pose proof (Z.div_mod (size + 32 - 1) 32 ltac:(lia)). pose proof (Z.mod_pos_bound (size + 32 - 1) 32 ltac:(lia)). lia. Qed.
Lemma mem_valid size p j : valid size p -> 0 <= j -> size <= j -> mem p j = false.
Proof. intros V Hj H. induction p; cbn [valid mem] in *; try destruct V; rewrite ?IHp, ?IHp1, ?IHp2 by tauto; try replace (j =? i) with false by lia; try reflexivity. Qed.
Lemma run_bs_ok size p : 0 < size -> valid size p -> no_diff p -> exists d, run_bs size p = Ok d /\ zlen d = (size + 32 - 1) / 32 /\ words 32 d /\ forall j, 0 <= j -> bit 32 d j = mem p j.
Proof.
  intros Hs. induction p; cbn [valid no_diff run_bs mem]; intros V N.
  - exists (bs_new size). split; [reflexivity|]. assert (0 <= (size + 32 - 1) / 32) by (apply Z.div_pos; lia). split; [unfold bs_new, zlen; rewrite repeat_length; lia|]. split; [apply words_zero; lia|]. intros j _. apply bit_zero.
  - destruct V as [Hi V]. destruct (IHp V N) as (d & E & L & W & B). rewrite E. cbn [bind]. destruct (set_bit 32 ltac:(lia) d i ltac:(lia) ltac:(rewrite L; apply size_words; lia) W) as (d' & E' & L' & W' & B'). exists d'. split; [exact E'|]. split; [lia|]. split; [exact W'|]. intros j Hj. rewrite B', B by lia. reflexivity.
  - destruct V as [Hi V]. destruct (IHp V N) as (d & E & L & W & B). rewrite E. cbn [bind]. destruct (unset_bit 32 ltac:(lia) d i ltac:(lia) ltac:(rewrite L; apply size_words; lia) W) as (d' & E' & L' & W' & B'). exists d'. split; [exact E'|]. split; [lia|]. split; [exact W'|]. intros j Hj. rewrite B', B by lia. reflexivity.
  - destruct V as [Hi V]. destruct (IHp V N) as (d & E & L & W & B). rewrite E. cbn [bind]. unfold bs_set_bool. destruct b.
    + destruct (set_bit 32 ltac:(lia) d i ltac:(lia) ltac:(rewrite L; apply size_words; lia) W) as (d' & E' & L' & W' & B'). exists d'. split; [exact E'|]. split; [lia|]. split; [exact W'|]. intros j Hj. rewrite B', B by lia. destruct (j =? i); reflexivity.
    + destruct (unset_bit 32 ltac:(lia) d i ltac:(lia) ltac:(rewrite L; apply size_words; lia) W) as (d' & E' & L' & W' & B'). exists d'. split; [exact E'|]. split; [lia|]. split; [exact W'|]. intros j Hj. rewrite B', B by lia. destruct (j =? i); reflexivity.
  - destruct V as [V1 V2], N as [N1 N2]. destruct (IHp1 V1 N1) as (d & E & L & W & B). destruct (IHp2 V2 N2) as (e & E2 & L2 & W2 & B2). rewrite E, E2. cbn [bind].
    destruct (map2_bit 32 ltac:(lia) Z.lxor xorb d e ltac:(lia) W W2 eq_refl) as (r & Er & Lr & Wr & Br); [intros; split; [apply Z.lxor_nonneg; lia|intros; apply Z.lxor_spec]|]. exists r. split; [exact Er|]. split; [lia|]. split; [exact Wr|]. intros j Hj. rewrite Br, B, B2 by lia. reflexivity.
  - destruct V as [V1 V2], N as [N1 N2]. destruct (IHp1 V1 N1) as (d & E & L & W & B). destruct (IHp2 V2 N2) as (e & E2 & L2 & W2 & B2). rewrite E, E2. cbn [bind].
    destruct (map2_bit 32 ltac:(lia) Z.lor orb d e ltac:(lia) W W2 eq_refl) as (r & Er & Lr & Wr & Br); [intros; split; [apply Z.lor_nonneg; lia|intros; apply Z.lor_spec]|]. exists r. split; [exact Er|]. split; [lia|]. split; [exact Wr|]. intros j Hj. rewrite Br, B, B2 by lia. reflexivity.
  - destruct V as [V1 V2], N as [N1 N2]. destruct (IHp1 V1 N1) as (d & E & L & W & B). destruct (IHp2 V2 N2) as (e & E2 & L2 & W2 & B2). rewrite E, E2. cbn [bind].
    destruct (map2_bit 32 ltac:(lia) Z.land andb d e ltac:(lia) W W2 eq_refl) as (r & Er & Lr & Wr & Br); [intros; split; [apply Z.land_nonneg; lia|intros; apply Z.land_spec]|]. exists r. split; [exact Er|]. split; [lia|]. split; [exact Wr|]. intros j Hj. rewrite Br, B, B2 by lia. reflexivity.
  - contradiction.
Qed.
Lemma bitset_ok size p : 0 < size -> valid size p -> no_diff p ->
  exists d, run_bs size p = Ok d /\ (forall i, 0 <= i < size -> bs_get 32 d i = Ok (mem p i)) /\ bs_cardinality 32 d = card (mem p) (Z.to_nat size).
Proof.
  intros Hs V N. destruct (run_bs_ok size p Hs V N) as (d & E & L & W & B). exists d. split; [exact E|]. split.
  - intros i Hi. rewrite (get_bit 32 ltac:(lia)), B by (try rewrite L; try apply size_words; lia). reflexivity.
  - rewrite cardinality_card by lia. change (Z.of_nat 32) with 32. rewrite (card_ext _ (mem p)) by (intros; apply B; lia).
    pose proof (Z.div_mod (size + 32 - 1) 32 ltac:(lia)) as DM. pose proof (Z.mod_pos_bound (size + 32 - 1) 32 ltac:(lia)).
    apply card_more; [unfold zlen in L; lia|]. intros j Hj. apply (mem_valid size); [exact V|lia|lia].
Qed.

(** ** GrowableBitSet *)
Lemma grow_bit w (d : list Z) q j : 0 < w <= 32 -> bit w (gb_grow d q) j = bit w d j.
Proof.
  intros Hw. unfold gb_grow, bit. destruct (Nat.lt_ge_cases (Z.to_nat (j / w)) (length d)).
  - rewrite nth_error_app1 by assumption. reflexivity.
  - rewrite nth_error_app2 by assumption. replace (nth_error d (Z.to_nat (j / w))) with (@None Z) by (symmetry; apply nth_error_None; assumption).
    destruct (nth_error (repeat 0 _) _) eqn:E; [|reflexivity]. apply nth_error_In, repeat_spec in E. subst. apply Z.bits_0.
Qed.
Lemma gset_bit w d i : 0 < w <= 32 -> 0 <= i -> words w d -> exists d', gb_set w d i = Ok d' /\ zlen d <= zlen d' /\ words w d' /\ forall j, 0 <= j -> bit w d' j = (j =? i) || bit w d j.
Proof.
  intros Hw Hi W. unfold gb_set. assert (0 <= i / w) by (apply Z.div_pos; lia). assert (L : zlen (gb_grow d (i / w)) = Z.max (zlen d) (i / w + 1)) by (unfold gb_grow, zlen; rewrite app_length, repeat_length; lia).
  destruct (set_bit w Hw (gb_grow d (i / w)) i Hi ltac:(lia)) as (d' & E & L' & W' & B).
  { unfold words, gb_grow. apply Forall_app. split; [exact W|apply words_zero; lia]. }
  exists d'. split; [exact E|]. split; [lia|]. split; [exact W'|]. intros j Hj. rewrite B, grow_bit by lia. reflexivity.
Qed.
Lemma gunset_bit w d i : 0 < w <= 32 -> 0 <= i -> words w d -> exists d', gb_unset w d i = Ok d' /\ zlen d' = zlen d /\ words w d' /\ forall j, 0 <= j -> bit w d' j = negb (j =? i) && bit w d j.
Proof.
  intros Hw Hi W. unfold gb_unset. destruct (Z.leb_spec (zlen d) (i / w)).
  - exists d. split; [reflexivity|]. split; [reflexivity|]. split; [exact W|]. intros j Hj. destruct (Z.eqb_spec j i) as [ -> |]; [|reflexivity]. cbn [negb andb]. unfold bit. replace (nth_error d (Z.to_nat (i / w))) with (@None Z); [reflexivity|]. symmetry. apply nth_error_None. unfold zlen in H. lia.
  - destruct (unset_bit w Hw d i Hi ltac:(lia) W) as (d' & E & L' & W' & B). exists d'. tauto.
Qed.
Lemma run_gb_ok w p : 0 < w <= 32 -> no_bin p -> exists d, run_gb w p = Ok d /\ words w d /\ forall j, 0 <= j -> bit w d j = mem p j.
Proof.
  intros Hw. induction p; cbn [no_bin run_gb mem]; intros V; try contradiction.
  - exists []. split; [reflexivity|]. split; [constructor|]. intros j _. unfold bit. destruct (Z.to_nat (j / w)); reflexivity.
  - destruct V as [Hi V]. destruct (IHp V) as (d & E & W & B). rewrite E. cbn [bind]. destruct (gset_bit w d i Hw Hi W) as (d' & E' & _ & W' & B'). exists d'. split; [exact E'|]. split; [exact W'|]. intros j Hj. rewrite B', B by lia. reflexivity.
  - destruct V as [Hi V]. destruct (IHp V) as (d & E & W & B). rewrite E. cbn [bind]. destruct (gunset_bit w d i Hw Hi W) as (d' & E' & _ & W' & B'). exists d'. split; [exact E'|]. split; [exact W'|]. intros j Hj. rewrite B', B by lia. reflexivity.
  - destruct V as [Hi V]. destruct (IHp V) as (d & E & W & B). rewrite E. cbn [bind]. destruct b.
    + destruct (gset_bit w d i Hw Hi W) as (d' & E' & _ & W' & B'). exists d'. split; [exact E'|]. split; [exact W'|]. intros j Hj. rewrite B', B by lia. destruct (j =? i); reflexivity.
    + destruct (gunset_bit w d i Hw Hi W) as (d' & E' & _ & W' & B'). exists d'. split; [exact E'|]. split; [exact W'|]. intros j Hj. rewrite B', B by lia. destruct (j =? i); reflexivity.
Qed.
Lemma clz_bits w x : 0 <= clz w x <= Z.of_nat w /\ (forall k, Z.of_nat w - clz w x <= k < Z.of_nat w -> Z.testbit x k = false) /\ (clz w x < Z.of_nat w -> Z.testbit x (Z.of_nat w - clz w x - 1) = true).
Proof.
  induction w as [|w (I1 & I2 & I3)]; [cbn [clz]; split; [lia|]; split; intros; lia|]. cbn [clz]. destruct (Z.testbit x (Z.of_nat w)) eqn:E.
  - split; [lia|]. split; [intros; lia|]. intros _. replace (Z.of_nat (S w) - 0 - 1) with (Z.of_nat w) by lia. exact E.
  - split; [lia|]. split.
    + intros k Hk. destruct (Z.eq_dec k (Z.of_nat w)) as [ -> |]; [exact E|]. apply I2. lia.
    + intros H. replace (Z.of_nat (S w) - (1 + clz w x) - 1) with (Z.of_nat w - clz w x - 1) by lia. apply I3. lia.
Qed.
Lemma gb_len_ok (w : nat) d : 0 < Z.of_nat w <= 32 -> words (Z.of_nat w) d ->
  exists n, gb_len w d = Ok n /\ 0 <= n /\ (forall j, n <= j -> bit (Z.of_nat w) d j = false) /\ (n mod Z.of_nat w <> 0 -> bit (Z.of_nat w) d (n - 1) = true).
Proof.
  intros Hw W. unfold gb_len. destruct (exists_last_or d) as [ -> |(u & x & -> )].
  - exists 0. split; [reflexivity|]. split; [lia|]. split; [|rewrite Z.mod_0_l by lia; congruence]. intros j _. unfold bit. destruct (Z.to_nat _); reflexivity.
  - rewrite zlen_app. change (zlen [x]) with 1. pose proof (zlen_nonneg u). set (N := (zlen u + 1) * Z.of_nat w) in *. assert (0 < N) by (unfold N; apply Z.mul_pos_pos; lia). replace (0 <? N) with true by lia.
    replace (zlen u + 1 - 1) with (zlen u) by lia. rewrite get_app by reflexivity. cbn [bind]. destruct (clz_bits w x) as (C1 & C2 & C3). exists (N - clz w x). split; [reflexivity|]. split; [unfold N in *; nia|].
    assert (Q : forall k, 0 <= k < Z.of_nat w -> bit (Z.of_nat w) (u ++ [x]) (zlen u * Z.of_nat w + k) = Z.testbit x k).
    { intros k Hk. unfold bit. rewrite Z.div_add_l, Z.div_small, Z.add_0_r by lia. rewrite Z.add_comm, Z.mod_add, Z.mod_small by lia. rewrite nth_error_app2 by (unfold zlen; lia). replace (Z.to_nat (zlen u) - length u)%nat with 0%nat by (unfold zlen; lia). reflexivity. }
    split.
    + intros j Hj. destruct (Z.lt_ge_cases j N) as [L|L].
      * replace j with (zlen u * Z.of_nat w + (j - zlen u * Z.of_nat w)) by lia. rewrite Q by (unfold N in *; nia). apply C2. unfold N in *. nia.
      * apply bit_high; [lia|lia|]. rewrite zlen_app. change (zlen [x]) with 1. exact L.
    + intros Hm. assert (clz w x < Z.of_nat w).
      { destruct (Z.eq_dec (clz w x) (Z.of_nat w)) as [Ec|]; [|lia]. exfalso. apply Hm. rewrite Ec. unfold N. replace ((zlen u + 1) * Z.of_nat w - Z.of_nat w) with (zlen u * Z.of_nat w) by ring. apply Z.mod_mul. lia. }
      replace (N - clz w x - 1) with (zlen u * Z.of_nat w + (Z.of_nat w - clz w x - 1)) by (unfold N; lia). rewrite Q by lia. apply C3. lia.
Qed.
Lemma growable_ok (w : nat) p : 0 < Z.of_nat w <= 32 -> no_bin p ->
  exists d n, run_gb (Z.of_nat w) p = Ok d /\ (forall i, 0 <= i -> gb_get (Z.of_nat w) d i = Ok (mem p i)) /\ gb_len w d = Ok n /\ 0 <= n /\ (forall i, n <= i -> mem p i = false) /\ (n mod Z.of_nat w <> 0 -> mem p (n - 1) = true) /\
    bs_cardinality w d = card (mem p) (Z.to_nat n).
Proof.
  intros Hw V. destruct (run_gb_ok (Z.of_nat w) p Hw V) as (d & E & W & B). destruct (gb_len_ok w d Hw W) as (n & En & Hn & Hb & Ht). exists d, n. split; [exact E|]. split.
  - intros i Hi. unfold gb_get. rewrite <- B by exact Hi. destruct (Z.leb_spec (zlen d) (i / Z.of_nat w)) as [L|L].
    + f_equal. symmetry. unfold bit. replace (nth_error d (Z.to_nat (i / Z.of_nat w))) with (@None Z); [reflexivity|]. symmetry. apply nth_error_None. unfold zlen in L. lia.
    + apply get_bit; lia.
  - split; [exact En|]. split; [exact Hn|]. split; [intros i Hi; rewrite <- B by lia; apply Hb; exact Hi|]. split.
    + intros Hm. rewrite <- B; [apply Ht; exact Hm|]. destruct (Z.eq_dec n 0) as [ -> |]; [|lia]. rewrite Z.mod_0_l in Hm by lia. congruence.
    + rewrite cardinality_card by exact Hw. rewrite (card_ext _ (mem p)) by (intros; apply B; lia).
      assert (Ln : n <= zlen d * Z.of_nat w). { unfold gb_len in En. destruct (0 <? zlen d * Z.of_nat w) eqn:Q; [|injection En as <-; lia]. destruct (get d (zlen d - 1)) as [x| |]; cbn [bind] in En; try discriminate. injection En as <-. destruct (clz_bits w x). lia. }
      apply card_more; [unfold zlen in *; lia|]. intros j Hj. rewrite <- B by lia. apply Hb. lia.
Qed.

(** ** EnumSet *)
Definition ebit (s : eset) (j : Z) : bool := match s with EArr l => bit 8 l j | EInt x => Z.testbit x j end.
Definition eok (n : Z) (s : eset) : Prop := match s with EArr l => 128 < n /\ zlen l = (n + 7) / 8 /\ words 8 l | EInt x => n <= 32 /\ 0 <= x < 2 ^ 32 end.
Lemma bytes_n n v : 0 <= v < n -> v / 8 < (n + 7) / 8.
Proof. intros H. apply Z.div_lt_upper_bound; [lia|]. pose proof (Z.div_mod (n + 7) 8 ltac:(lia)). pose proof (Z.mod_pos_bound (n + 7) 8 ltac:(lia)). lia. Qed.
Lemma mod_byte v : 0 <= v -> 2 ^ (v mod 8) mod 256 = 2 ^ (v mod 8).
Proof. intros H. pose proof (Z.mod_pos_bound v 8 ltac:(lia)). apply Z.mod_small. split; [apply Z.pow_nonneg; lia|]. change 256 with (2 ^ 8). apply Z.pow_lt_mono_r; lia. Qed.
Lemma es_add_ok n s v : eok n s -> 0 <= v < n -> exists s', es_add s v = Ok s' /\ eok n s' /\ forall j, 0 <= j -> ebit s' j = (j =? v) || ebit s j.
Proof.
  intros H Hv. destruct s as [x|l]; cbn [eok es_add ebit] in *.
  - destruct H as [Hn Hx]. unfold shl1. replace ((0 <=? v) && (v <? 32)) with true by lia. cbn [bind]. eexists. split; [reflexivity|]. assert (0 <= 2 ^ v < 2 ^ 32) by (split; [apply Z.pow_nonneg; lia|apply Z.pow_lt_mono_r; lia]). cbn [eok ebit]. split.
    + split; [exact Hn|]. split; [apply Z.lor_nonneg; lia|]. apply bits_range; [lia|apply Z.lor_nonneg; lia|]. intros k Hk. rewrite Z.lor_spec, !(high_bits 32) by lia. reflexivity.
    + intros j Hj. rewrite Z.lor_spec, pow2_bit by lia. apply orb_comm.
  - destruct H as (Hn & Hl & W). destruct (set_bit 8 ltac:(lia) l v ltac:(lia) ltac:(rewrite Hl; apply bytes_n; lia) W) as (d & E & L & W' & B). unfold bs_set in E. rewrite (shl1_ok 8 ltac:(lia) v) in *. destruct (get l (v / 8)); cbn [bind] in *; try discriminate. rewrite mod_byte by lia. rewrite E. cbn [bind]. eexists. split; [reflexivity|]. cbn [eok ebit]. split; [|exact B]. split; [exact Hn|]. split; [lia|exact W'].
Qed.
Lemma es_bin_ok n f g s t : eok n s -> eok n t -> g false false = false ->
  (forall w x y, w = 8 \/ w = 32 -> (match s with EArr _ => w = 8 | _ => w = 32 end) -> 0 <= x < 2 ^ w -> 0 <= y < 2 ^ w -> 0 <= f x y /\ forall k, 0 <= k -> Z.testbit (f x y) k = g (Z.testbit x k) (Z.testbit y k)) ->
  exists r, es_bin f s t = Ok r /\ eok n r /\ forall j, 0 <= j -> ebit r j = g (ebit s j) (ebit t j).
Proof.
  intros Hs Ht G0 F. destruct s as [x|l], t as [y|m]; cbn [eok es_bin ebit] in *; try lia.
  - destruct Hs as [Hn Hx], Ht as [_ Hy]. destruct (F 32 x y ltac:(auto) eq_refl Hx Hy) as [F0 Fb]. eexists. split; [reflexivity|]. cbn [eok ebit]. split; [|exact Fb]. split; [exact Hn|]. split; [exact F0|]. apply bits_range; [lia|exact F0|]. intros k Hk. rewrite Fb, !(high_bits 32) by lia. exact G0.
  - destruct Hs as (Hn & Hl & Wl), Ht as (_ & Hm & Wm). destruct (map2_bit 8 ltac:(lia) f g l m ltac:(lia) Wl Wm G0) as (r & Er & Lr & Wr & Br); [intros; apply (F 8); auto|]. rewrite Er. cbn [bind]. eexists. split; [reflexivity|]. cbn [eok ebit]. split; [|exact Br]. split; [exact Hn|]. split; [lia|exact Wr].
Qed.
Lemma es_diff_ok n s t : eok n s -> eok n t -> exists r, es_remove_all s t = Ok r /\ eok n r /\ forall j, 0 <= j -> ebit r j = ebit s j && negb (ebit t j).
Proof.
  intros Hs Ht. unfold es_remove_all. destruct s as [x|l].
  - apply (es_bin_ok n _ (fun a b => a && negb b)); [exact Hs|exact Ht|reflexivity|]. intros w a b _ -> Ha Hb. split; [apply Z.land_nonneg; lia|]. intros k Hk. rewrite Z.land_spec, compl_bits by lia. destruct (Z.ltb_spec k 32); [reflexivity|]. rewrite (high_bits 32 a) by lia. reflexivity.
  - apply (es_bin_ok n _ (fun a b => a && negb b)); [exact Hs|exact Ht|reflexivity|]. intros w a b _ -> Ha Hb. split; [apply Z.land_nonneg; lia|]. intros k Hk. change 255 with (2 ^ 8 - 1). rewrite Z.land_spec, compl_bits by lia. destruct (Z.ltb_spec k 8); [reflexivity|]. rewrite (high_bits 8 a) by lia. reflexivity.
Qed.
Lemma es_remove_int n x v : eok n (EInt x) -> 0 <= v < n -> exists s', es_remove (EInt x) v = Ok (Z.testbit x v, s') /\ eok n s' /\ forall j, 0 <= j -> ebit s' j = negb (j =? v) && Z.testbit x j.
Proof.
  intros [Hn Hx] Hv. cbn [es_remove]. unfold shl1. replace ((0 <=? v) && (v <? 32)) with true by lia. cbn [bind]. assert (Hp : 0 <= 2 ^ v < 2 ^ 32) by (split; [apply Z.pow_nonneg; lia|apply Z.pow_lt_mono_r; lia]).
  set (y := Z.land x (2 ^ 32 - 1 - 2 ^ v)). assert (By : forall j, 0 <= j -> Z.testbit y j = negb (j =? v) && Z.testbit x j).
  { intros j Hj. unfold y. rewrite Z.land_spec, compl_bits, pow2_bit by lia. destruct (Z.ltb_spec j 32); [apply andb_comm|]. rewrite (high_bits 32 x) by lia. rewrite !andb_false_r. reflexivity. }
  assert (H0 : 0 <= y) by (unfold y; apply Z.land_nonneg; lia).
  exists (EInt y). split.
  - do 2 f_equal. destruct (Z.testbit x v) eqn:E.
    + replace (x =? y) with false; [reflexivity|]. symmetry. apply Z.eqb_neq. intros K. rewrite K, By, Z.eqb_refl in E by lia. discriminate.
    + replace (x =? y) with true; [reflexivity|]. symmetry. apply Z.eqb_eq. apply Z.bits_inj'. intros j Hj. rewrite By by lia. destruct (Z.eqb_spec j v) as [ -> |]; [exact E|reflexivity].
  - cbn [eok ebit]. split; [|exact By]. split; [exact Hn|]. split; [exact H0|]. apply bits_range; [lia|exact H0|]. intros k Hk. rewrite By, (high_bits 32 x), andb_false_r by lia. reflexivity.
Qed.
Lemma es_has_int n x v : eok n (EInt x) -> 0 <= v < n -> es_has (EInt x) v = Ok (Z.testbit x v).
Proof. intros [Hn Hx] Hv. cbn [es_has]. unfold shl1. replace ((0 <=? v) && (v <? 32)) with true by lia. cbn [bind]. rewrite land_pow2, negb_involutive by lia. reflexivity. Qed.
Lemma es_has_arr n l v : eok n (EArr l) -> 0 <= v < n -> es_has (EArr l) v = Ok ((v mod 8 =? 0) && bit 8 l v).
Proof.
  intros (Hn & Hl & W) Hv. cbn [es_has]. destruct (get_word 8 ltac:(lia) l v ltac:(lia) ltac:(rewrite Hl; apply bytes_n; lia)) as (x & E & N). rewrite E. cbn [bind]. f_equal. unfold bit. rewrite N. pose proof (Z.mod_pos_bound v 8 ltac:(lia)).
  change (Z.land (Z.shiftl x (v mod 8) mod 2 ^ 32) 1 =? 0) with (Z.land (Z.shiftl x (v mod 8) mod 2 ^ 32) (2 ^ 0) =? 0). rewrite land_pow2, negb_involutive by lia. rewrite Z.mod_pow2_bits_low, Z.shiftl_spec by lia.
  destruct (Z.eqb_spec (v mod 8) 0) as [Q|Q]; [rewrite Q; reflexivity|]. cbn [andb]. apply Z.testbit_neg_r. lia.
Qed.
Lemma run_es_ok n p : 0 < n <= 32 \/ 128 < n -> valid n p -> no_assign p -> (128 < n -> no_remove p) -> exists s, run_es n p = Ok s /\ eok n s /\ forall j, 0 <= j -> ebit s j = mem p j.
Proof.
  intros Hn. induction p; cbn [valid no_assign no_remove run_es mem]; intros V N R.
  - exists (es_new n). split; [reflexivity|]. unfold es_new. destruct (Z.ltb_spec 128 n); cbn [eok ebit].
    + split; [|intros; apply bit_zero]. split; [lia|]. assert (0 <= (n + 7) / 8) by (apply Z.div_pos; lia). split; [unfold zlen; rewrite repeat_length; lia|apply words_zero; lia].
    + split; [lia|]. intros. apply Z.bits_0.
  - destruct V as [Hi V]. destruct (IHp V N R) as (s & E & K & B). rewrite E. cbn [bind]. destruct (es_add_ok n s i K Hi) as (s' & E' & K' & B'). exists s'. split; [exact E'|]. split; [exact K'|]. intros j Hj. rewrite B', B by lia. reflexivity.
  - destruct V as [Hi V]. assert (n <= 32) by (destruct Hn; [lia|exfalso; apply R; lia]). destruct (IHp V N ltac:(lia)) as (s & E & K & B). rewrite E. cbn [bind]. destruct s as [x|l]; [|destruct K; lia]. destruct (es_remove_int n x i K Hi) as (s' & E' & K' & B'). rewrite E'. cbn [bind]. exists s'. split; [reflexivity|]. split; [exact K'|]. intros j Hj. rewrite B', <- B by lia. reflexivity.
  - contradiction.
  - destruct V as [V1 V2], N as [N1 N2]. destruct (IHp1 V1 N1 ltac:(intros; apply R; lia)) as (s & E & K & B). destruct (IHp2 V2 N2 ltac:(intros; apply R; lia)) as (t & E2 & K2 & B2). rewrite E, E2. cbn [bind].
    destruct (es_bin_ok n Z.lxor xorb s t K K2 eq_refl) as (r & Er & Kr & Br); [intros; split; [apply Z.lxor_nonneg; lia|intros; apply Z.lxor_spec]|]. exists r. split; [exact Er|]. split; [exact Kr|]. intros j Hj. rewrite Br, B, B2 by lia. reflexivity.
  - destruct V as [V1 V2], N as [N1 N2]. destruct (IHp1 V1 N1 ltac:(intros; apply R; lia)) as (s & E & K & B). destruct (IHp2 V2 N2 ltac:(intros; apply R; lia)) as (t & E2 & K2 & B2). rewrite E, E2. cbn [bind].
    destruct (es_bin_ok n Z.lor orb s t K K2 eq_refl) as (r & Er & Kr & Br); [intros; split; [apply Z.lor_nonneg; lia|intros; apply Z.lor_spec]|]. exists r. split; [exact Er|]. split; [exact Kr|]. intros j Hj. rewrite Br, B, B2 by lia. reflexivity.
  - destruct V as [V1 V2], N as [N1 N2]. destruct (IHp1 V1 N1 ltac:(intros; apply R; lia)) as (s & E & K & B). destruct (IHp2 V2 N2 ltac:(intros; apply R; lia)) as (t & E2 & K2 & B2). rewrite E, E2. cbn [bind].
    destruct (es_bin_ok n Z.land andb s t K K2 eq_refl) as (r & Er & Kr & Br); [intros; split; [apply Z.land_nonneg; lia|intros; apply Z.land_spec]|]. exists r. split; [exact Er|]. split; [exact Kr|]. intros j Hj. rewrite Br, B, B2 by lia. reflexivity.
  - destruct V as [V1 V2], N as [N1 N2]. destruct (IHp1 V1 N1 ltac:(intros; apply R; lia)) as (s & E & K & B). destruct (IHp2 V2 N2 ltac:(intros; apply R; lia)) as (t & E2 & K2 & B2). rewrite E, E2. cbn [bind].
    destruct (es_diff_ok n s t K K2) as (r & Er & Kr & Br). exists r. split; [exact Er|]. split; [exact Kr|]. intros j Hj. rewrite Br, B, B2 by lia. reflexivity.
Qed.
