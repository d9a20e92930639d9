From Coq Require Import ZArith Bool List Lia ZifyBool Arith.
From Verif Require Import RndModel RndSpec RndProofs.
Import ListNotations.
Local Open Scope Z_scope.

Lemma wrap_wrap_add k x y : 0 <= k -> wrap k (wrap k x + y) = wrap k (x + y).
Proof. intros K. unfold wrap. apply Z.add_mod_idemp_l. apply Z.pow_nonzero; lia. Qed.
Lemma lcg_linear k mul add : 0 <= k -> linear (lcg k mul add) k mul add.
Proof. intros K s _. cbn. apply wrap_wrap_add, K. Qed.
Lemma pcg_linear k r mul add : 0 <= k -> linear (pcg k r mul add) k mul add.
Proof. intros K s _. cbn. apply wrap_wrap_add, K. Qed.
Lemma mcg_linear k mul : linear (mcg k mul) k mul 0.
Proof. intros s _. cbn. unfold wrap. f_equal. lia. Qed.
Lemma simple_linear : linear simple 48 0x5DEECE66D 0xB.
Proof.
  intros s _. cbn [simple snd]. rewrite wrap_wrap_add by lia. unfold wrap. change (2 ^ 48 - 1) with (Z.ones 48). rewrite Z.land_ones by lia.
  symmetry. apply Znumtheory.Zmod_div_mod; [lia|lia|]. exists (2 ^ 16). reflexivity.
Qed.
Lemma land_mask x : Z.land x (2 ^ 48 - 1) = x mod 2 ^ 48.
Proof. change (2 ^ 48 - 1) with (Z.ones 48). apply Z.land_ones. lia. Qed.

(** ** Widths *)
Section Wide.
Context {S : Type} (g : gen S) (b : Z).
Lemma output_shift i j s : output g (i + j) s = output g j (state_after g i s).
Proof. unfold output. rewrite state_after_add. reflexivity. Qed.
Lemma digits_shift n : forall i j s, digits g b s (i + j) n = digits g b (state_after g i s) j n.
Proof. induction n as [|n IH]; intros i j s; [reflexivity|]. cbn. rewrite output_shift. replace (Datatypes.S (i + j)) with (i + Datatypes.S j)%nat by lia. rewrite IH. reflexivity. Qed.
Lemma digits_add s p q : forall i, 0 <= b -> digits g b s i (p + q) = digits g b s i p * 2 ^ (b * Z.of_nat q) + digits g b s (i + p) q.
Proof.
  intros i B. revert i. induction p as [|p IH]; intros i; [cbn; f_equal; lia|]. cbn [digits Nat.add]. rewrite IH. replace (Datatypes.S i + p)%nat with (i + Datatypes.S p)%nat by lia.
  replace (b * Z.of_nat (p + q)) with (b * Z.of_nat p + b * Z.of_nat q) by lia. rewrite Z.pow_add_r by lia. lia.
Qed.
Lemma wide_ok d : 0 <= b -> forall s, wide g b d s = (digits g b s 0 (2 ^ d), state_after g (2 ^ d) s).
Proof.
  intros B. induction d as [|d IH]; intros s; cbn [wide].
  - cbn. unfold output. cbn. rewrite Z.mul_0_r. cbn. destruct (g s). cbn. f_equal. lia.
  - rewrite IH, IH. replace (2 ^ Datatypes.S d)%nat with (2 ^ d + 2 ^ d)%nat by (cbn; lia). rewrite state_after_add, digits_add by exact B. rewrite Z.shiftl_mul_pow2 by (apply Z.mul_nonneg_nonneg; [exact B|apply Z.pow_nonneg; lia]).
    f_equal. rewrite Nat2Z.inj_pow. change (Z.of_nat 2) with 2. f_equal. change (0 + 2 ^ d)%nat with (2 ^ d)%nat. rewrite <- (digits_shift (2 ^ d) (2 ^ d) 0). f_equal. lia.
Qed.
Lemma wide_states d n s : 0 <= b -> state_after (wide g b d) n s = state_after g (2 ^ d * n) s.
Proof.
  intros B. revert s. induction n as [|n IH]; intros s; [rewrite Nat.mul_0_r; reflexivity|]. cbn [state_after]. rewrite (wide_ok d B s). cbn [snd]. rewrite IH, <- state_after_add. f_equal. lia.
Qed.
Definition narrow_outputs := forall s, 0 <= fst (g s) < 2 ^ b.
Lemma digits_bound (s : S) : 0 <= b -> (forall i, 0 <= output g i s < 2 ^ b) -> forall n i, 0 <= digits g b s i n < 2 ^ (b * Z.of_nat n).
Proof.
  intros B O. induction n as [|n IH]; intros i; [cbn; rewrite Z.mul_0_r; lia|]. cbn [digits]. specialize (IH (Datatypes.S i)). specialize (O i).
  rewrite Nat2Z.inj_succ. replace (b * Z.succ (Z.of_nat n)) with (b + b * Z.of_nat n) by lia. rewrite Z.pow_add_r by lia. assert (0 < 2 ^ (b * Z.of_nat n)) by (apply Z.pow_pos_nonneg; lia). nia.
Qed.
End Wide.
Lemma narrow_states {S} (g : gen S) t n s : state_after (narrow g t) n s = state_after g n s.
Proof. apply state_after_ext. intros u. unfold narrow. destruct (g u). reflexivity. Qed.

(** ** Picking *)
Lemma mask_ones r : 0 < r < 2 ^ 32 -> mask r = Z.ones (Z.log2 r + 1) /\ 0 <= Z.log2 r < 32.
Proof.
  intros R. assert (L : 0 <= Z.log2 r < 32) by (split; [apply Z.log2_nonneg|apply Z.log2_lt_pow2; lia]). split; [|exact L]. unfold mask.
  change (2 ^ 32 - 1) with (Z.ones 32). rewrite Z.shiftr_div_pow2 by lia. rewrite Z.ones_div_pow2 by lia. f_equal. lia.
Qed.
Lemma masked v r : 0 < r < 2 ^ 32 -> Z.land v (mask r) = v mod 2 ^ (Z.log2 r + 1).
Proof. intros R. destruct (mask_ones r R) as (-> & L). apply Z.land_ones. lia. Qed.
Section Pick.
Context {S : Type} (ni : gen S).
Lemma pick_loop_S fuel r s : pick_loop ni (Datatypes.S fuel) r s = (let (v, s) := ni s in let x := Z.land v (mask r) in if r <? x then pick_loop ni fuel r s else Some (x, s)).
Proof. reflexivity. Qed.
(** The first output that is in the range. *)
Lemma pick_loop_found r : forall n s, r <? Z.land (output ni n s) (mask r) = false -> exists m, (m <= n)%nat /\ pick_loop ni (Datatypes.S n) r s = Some (Z.land (output ni m s) (mask r), state_after ni (Datatypes.S m) s) /\
  r <? Z.land (output ni m s) (mask r) = false /\ forall i, (i < m)%nat -> r <? Z.land (output ni i s) (mask r) = true.
Proof.
  induction n as [|n IH]; intros s H.
  - exists O. split; [lia|]. unfold output in *. cbn in *. destruct (ni s) as [v s']. cbn in *. rewrite H. repeat split; auto. intros i I. lia.
  - destruct (r <? Z.land (output ni 0 s) (mask r)) eqn:Q.
    + destruct (IH (snd (ni s)) H) as (m & M1 & M2 & M3 & M4). exists (Datatypes.S m). split; [lia|]. split; [|split; [exact M3|]].
      * rewrite pick_loop_S. unfold output in Q. cbn [state_after] in Q. destruct (ni s) as [v s'] eqn:N. cbn [fst snd] in *. rewrite Q. rewrite M2. unfold output. cbn [state_after]. rewrite N. reflexivity.
      * intros i I. destruct i as [|i]; [exact Q|]. exact (M4 i ltac:(lia)).
    + exists O. split; [lia|]. split; [|split; [exact Q|intros i I; lia]]. cbn [pick_loop]. unfold output in *. cbn [state_after] in *. destruct (ni s) as [v s'] eqn:N. cbn [fst snd] in *. rewrite Q. reflexivity.
Qed.
Lemma pick_loop_sound r : forall fuel s x s', pick_loop ni fuel r s = Some (x, s') -> exists n, x = Z.land (output ni n s) (mask r) /\ s' = state_after ni (Datatypes.S n) s /\ r <? x = false /\ forall i, (i < n)%nat -> r <? Z.land (output ni i s) (mask r) = true.
Proof.
  induction fuel as [|fuel IH]; intros s x s' H; [discriminate|]. cbn [pick_loop] in H. destruct (ni s) as [v t] eqn:N. destruct (r <? Z.land v (mask r)) eqn:Q.
  - destruct (IH t x s' H) as (n & N1 & N2 & N3 & N4). exists (Datatypes.S n). unfold output in *. cbn [state_after]. rewrite N. cbn [snd]. split; [exact N1|]. split; [exact N2|]. split; [exact N3|].
    intros i I. destruct i as [|i]; [cbn [state_after]; rewrite N; exact Q|]. cbn [state_after]. rewrite N. exact (N4 i ltac:(lia)).
  - injection H as <- <-. exists O. unfold output. cbn [state_after]. rewrite N. cbn [fst snd]. repeat split; auto. intros i I. lia.
Qed.
End Pick.
(** A generator whose outputs of [b] bits are 0 again and again at every place modulo 2^d. *)
Definition zeros {S} (g : gen S) (d : nat) (s : S) : Prop := forall j, exists q, output g (j + 2 ^ d * q) s = 0.
Lemma zero_word {S} (g : gen S) b d s r : 0 < b -> b * 2 ^ Z.of_nat d = 32 -> (forall i, 0 <= output g i s < 2 ^ b) -> zeros g d s -> 0 < r < 2 ^ 32 -> exists n, r <? Z.land (output (wide g b d) n s) (mask r) = false.
Proof.
  intros B B32 O Z R. destruct (mask_ones r R) as (_ & L). set (m := Z.log2 r) in *.
  set (q := m / b). assert (Q1 : b * q <= m < b * q + b) by (pose proof (Z.div_mod m b ltac:(lia)); pose proof (Z.mod_pos_bound m b ltac:(lia)); unfold q; lia).
  assert (Q2 : 0 <= q < 2 ^ Z.of_nat d) by nia.
  assert (D2 : Z.of_nat (2 ^ d) = 2 ^ Z.of_nat d) by (rewrite Nat2Z.inj_pow; reflexivity).
  set (j := (2 ^ d - 1 - Z.to_nat q)%nat). destruct (Z j) as (n & E). exists n. rewrite masked by exact R. fold m. unfold output at 1. rewrite wide_states, wide_ok by lia. cbn [fst].
  set (t := state_after g (2 ^ d * n) s). assert (O' : forall i, 0 <= output g i t < 2 ^ b) by (intros i; unfold t; rewrite <- output_shift; apply O).
  replace (2 ^ d)%nat with (j + Datatypes.S (Z.to_nat q))%nat by (unfold j; lia). rewrite digits_add by lia. cbn [digits Nat.add].
  assert (E' : output g j t = 0) by (unfold t; rewrite <- output_shift; rewrite Nat.add_comm; exact E). rewrite E', Z.mul_0_l, Z.add_0_l.
  pose proof (digits_bound g b t ltac:(lia) O' (Z.to_nat q) (Datatypes.S j)) as F. set (y := digits g b t (Datatypes.S j) (Z.to_nat q)) in *. replace (Z.of_nat (Z.to_nat q)) with q in F by lia. set (D := digits g b t 0 j).
  replace (b * Z.of_nat (Datatypes.S (Z.to_nat q))) with ((b * q + b - (m + 1)) + (m + 1)) by lia. rewrite Z.pow_add_r by lia. rewrite Z.mul_assoc, Z.add_comm, Z.mod_add by (apply Z.pow_nonzero; lia).
  assert (P1 : 2 ^ (b * q) <= 2 ^ m) by (apply Z.pow_le_mono_r; lia). assert (P2 : 2 ^ m <= r) by (apply Z.log2_spec; lia). assert (P3 : 2 ^ (m + 1) = 2 * 2 ^ m) by (rewrite Z.pow_add_r by lia; lia).
  rewrite Z.mod_small by lia. lia.
Qed.
Lemma zero_narrow {S} (g : gen S) s r : zeros g 0 s -> 0 < r < 2 ^ 32 -> exists n, r <? Z.land (output (narrow g 32) n s) (mask r) = false.
Proof.
  intros Z R. destruct (Z O) as (n & E). cbn [Nat.pow] in E. replace (0 + 1 * n)%nat with n in E by lia. exists n. unfold output in *. rewrite narrow_states. unfold narrow. destruct (g (state_after g n s)) as [x u]. cbn in *. subst x. unfold wrap. rewrite Z.mod_0_l by lia. rewrite Z.land_0_l. lia.
Qed.
Lemma linear_zeros g k a c d s : linear g (Z.of_nat k) a c -> a mod 4 = 1 -> Z.odd c = true -> (d <= k)%nat -> word_of (Z.of_nat k) s -> (forall t, 0 <= t < p2 d -> fst (g t) = 0) -> zeros g d s.
Proof.
  intros L A C D W H j. pose proof (linear_words g k a c L j s W) as J. set (t := state_after g j s) in *. pose proof (p2_pos d) as P.
  assert (T : 0 <= t mod p2 d < p2 d) by (apply Z.mod_pos_bound; lia). assert (M : p2 d <= p2 k) by (apply Z.pow_le_mono_r; lia).
  destruct (lcg_reach g k a c L A C d t (t mod p2 d) D J) as (q & Q); [unfold word_of; lia|exists (t / p2 d); pose proof (Z.div_mod t (p2 d) ltac:(lia)); lia|].
  exists q. rewrite output_shift. unfold output. fold t. rewrite Q. apply H, T.
Qed.
Lemma mul_zeros g k a d s : linear g (Z.of_nat k) a 0 -> a mod 8 = 5 -> (d + 2 <= k)%nat -> Z.odd s = true -> word_of (Z.of_nat k) s -> (forall t, 0 <= t < 4 * p2 d -> fst (g t) = 0) -> zeros g d s.
Proof.
  intros L A D O W H j. pose proof (linear_words g k a 0 L j s W) as J. pose proof (mcg_odd g k a 0 L A eq_refl ltac:(lia) j s O W) as OJ. set (t := state_after g j s) in *. pose proof (p2_pos d) as P.
  assert (T : 0 <= t mod (4 * p2 d) < 4 * p2 d) by (apply Z.mod_pos_bound; lia). assert (M : 4 * p2 d <= p2 k) by (replace (4 * p2 d) with (p2 (S (S d))) by (rewrite !p2_S; lia); apply Z.pow_le_mono_r; lia).
  destruct (mcg_reach g k a 0 L A eq_refl ltac:(lia) d t (t mod (4 * p2 d)) D OJ J) as (q & Q); [unfold word_of; lia|exists (t / (4 * p2 d)); pose proof (Z.div_mod t (4 * p2 d) ltac:(lia)); lia|].
  exists q. rewrite output_shift. unfold output. fold t. rewrite Q. apply H, T.
Qed.

(** ** Filling bytes *)
Lemma le_bytes_len n : forall x, length (le_bytes n x) = n.
Proof. induction n as [|n IH]; intros x; cbn; [reflexivity|]. now rewrite IH. Qed.
Lemma to_bytes_ok {S} (g : gen S) size : (0 < size)%nat -> forall fuel len s, (0 < len)%nat -> (len <= fuel)%nat ->
  exists n, ((n - 1) * size < len <= n * size)%nat /\ to_bytes g fuel size len s = Some (firstn len (bytes_from g size s 0 n), state_after g n s).
Proof.
  intros SZ. assert (SH : forall n i s, bytes_from g size s (Datatypes.S i) n = bytes_from g size (snd (g s)) i n).
  { induction n as [|n IH]; intros i s; [reflexivity|]. cbn [bytes_from]. rewrite IH. unfold output. reflexivity. }
  induction fuel as [|fuel IH]; intros len s L F; [lia|]. cbn [to_bytes]. destruct len as [|len']; [lia|]. set (len := Datatypes.S len') in *. destruct (g s) as [v t] eqn:G. destruct (Nat.leb_spec len size) as [Q|Q].
  - exists 1%nat. split; [lia|]. cbn [bytes_from state_after]. unfold output. cbn [state_after]. rewrite G. cbn [fst snd]. rewrite app_nil_r. reflexivity.
  - destruct (IH (len - size)%nat t ltac:(lia) ltac:(lia)) as (n & N1 & N2). rewrite N2. exists (Datatypes.S n). split; [destruct n as [|n]; [cbn [Nat.mul] in N1; lia|]; replace (Datatypes.S (Datatypes.S n) - 1)%nat with (Datatypes.S n) by lia; replace (Datatypes.S n - 1)%nat with n in N1 by lia; cbn [Nat.mul] in *; lia|]. cbn [bytes_from state_after]. rewrite SH, G. cbn [snd]. unfold output. cbn [state_after]. rewrite G. cbn [fst].
    rewrite firstn_app, le_bytes_len. rewrite (firstn_all2 (le_bytes size v)) by (rewrite le_bytes_len; lia). reflexivity.
Qed.

(** ** The chaotic generators *)
Lemma xs_inj k r x y : 0 < r -> word_of k x -> word_of k y -> Z.lxor x (Z.shiftr x r) = Z.lxor y (Z.shiftr y r) -> x = y.
Proof.
  intros R X Y E. unfold word_of in *. assert (K : 0 <= k) by (destruct (Z.ltb_spec k 0); [rewrite Z.pow_neg_r in X by lia; lia|lia]).
  assert (B : forall n i, 0 <= i -> k - i <= Z.of_nat n -> Z.testbit x i = Z.testbit y i).
  { assert (HI : forall z i, 0 <= z < 2 ^ k -> k <= i -> Z.testbit z i = false).
    { intros z i Z I. destruct (Z.eq_dec z 0) as [->|NZ]; [apply Z.bits_0|]. apply Z.bits_above_log2; [lia|]. apply Z.lt_le_trans with k; [apply Z.log2_lt_pow2; lia|lia]. }
    induction n as [|n IH]; intros i I N; [rewrite !HI by lia; reflexivity|]. assert (T := f_equal (fun z => Z.testbit z i) E). cbn beta in T. rewrite !Z.lxor_spec, !Z.shiftr_spec in T by lia.
    rewrite (IH (i + r)) in T by lia. destruct (Z.testbit x i), (Z.testbit y i), (Z.testbit y (i + r)); cbn in T; congruence. }
  apply Z.bits_inj'. intros i I. apply (B (Z.to_nat k) i I). lia.
Qed.
Lemma mod_inj k m x y : Z.odd m = true -> word_of (Z.of_nat k) x -> word_of (Z.of_nat k) y -> (x * m) mod p2 k = (y * m) mod p2 k -> x = y.
Proof.
  unfold word_of. intros O X Y E. pose proof (p2_pos k) as P. assert (D : (p2 k | m * (x - y))).
  { apply Z.mod_divide; [lia|]. replace (m * (x - y)) with (x * m - y * m) by lia. rewrite Zminus_mod, E, Z.sub_diag. apply Z.mod_0_l. lia. }
  apply (odd_div k m (x - y) O) in D. destruct D as (q & D). assert (q = 0) by nia. lia.
Qed.
Lemma add_inj k x y z : word_of k x -> word_of k y -> wrap k (x + z) = wrap k (y + z) -> x = y.
Proof.
  unfold word_of, wrap. intros X Y E. assert (P : 0 < 2 ^ k) by lia. assert (D : (2 ^ k | x - y)).
  { apply Z.mod_divide; [lia|]. replace (x - y) with ((x + z) - (y + z)) by lia. rewrite Zminus_mod, E, Z.sub_diag. apply Z.mod_0_l. lia. }
  destruct D as (q & D). assert (q = 0) by nia. lia.
Qed.
Lemma sfc_inj (k : nat) r l q phi s t : 0 < r -> 0 < l -> words_of (Z.of_nat k) s -> words_of (Z.of_nat k) t -> snd (sfc (Z.of_nat k) r l q phi s) = snd (sfc (Z.of_nat k) r l q phi t) -> s = t.
Proof.
  intros R LL. destruct s as [[[a b] c] d], t as [[[a' b'] c'] d']. cbn [words_of]. intros (A & B & C & D) (A' & B' & C' & D') E. cbn [sfc snd] in E. injection E as E1 E2 E3 E4.
  apply xs_inj with (k := Z.of_nat k) in E1; auto. subst b'. apply add_inj in E4; auto. subst d'.
  assert (c = c').
  { apply mod_inj with k (1 + 2 ^ l); auto.
    - replace l with (Z.succ (l - 1)) by lia. rewrite Z.pow_succ_r by lia. rewrite Z.odd_add_mul_2. reflexivity.
    - unfold wrap in E2. rewrite !Z.add_mod_idemp_r in E2 by (pose proof (p2_pos k); lia). rewrite !Z.shiftl_mul_pow2 in E2 by lia. replace (c * (1 + 2 ^ l)) with (c + c * 2 ^ l) by lia. replace (c' * (1 + 2 ^ l)) with (c' + c' * 2 ^ l) by lia. exact E2. }
  subst c'. rewrite !(Z.add_comm (rotr _ _ _)) in E3. apply add_inj in E3; [|apply Z.mod_pos_bound, p2_pos|apply Z.mod_pos_bound, p2_pos].
  rewrite <- !Z.add_assoc in E3. apply add_inj in E3; auto. subst a'. reflexivity.
Qed.
Lemma sfc_words (k : nat) r l q phi s : 0 < r -> words_of (Z.of_nat k) s -> words_of (Z.of_nat k) (snd (sfc (Z.of_nat k) r l q phi s)).
Proof.
  intros R. destruct s as [[[a b] c] d]. cbn [words_of sfc snd]. intros (A & B & C & D). assert (M : forall x, word_of (Z.of_nat k) (wrap (Z.of_nat k) x)) by (intros x; apply Z.mod_pos_bound, p2_pos).
  repeat split; try apply M.
  - apply Z.lxor_nonneg. split; intros _; [apply Z.shiftr_nonneg|]; apply B.
  - unfold word_of in B. destruct (Z.eq_dec (Z.lxor b (Z.shiftr b r)) 0) as [->|N]; [apply p2_pos|]. assert (0 <= Z.lxor b (Z.shiftr b r)) by (apply Z.lxor_nonneg; split; intros _; [apply Z.shiftr_nonneg|]; apply B).
    destruct (Z.eq_dec b 0) as [->|NB]; [rewrite Z.shiftr_0_l in N; cbn in N; lia|].
    apply Z.log2_lt_pow2; [lia|]. apply Z.le_lt_trans with (Z.max (Z.log2 b) (Z.log2 (Z.shiftr b r))); [apply Z.log2_lxor; [apply B|apply Z.shiftr_nonneg, B]|].
    apply Z.max_lub_lt; [apply Z.log2_lt_pow2; lia|]. rewrite Z.log2_shiftr by lia. apply Z.max_lub_lt; [assert (Z.log2 b < Z.of_nat k) by (apply Z.log2_lt_pow2; lia); assert (0 <= Z.log2 b) by apply Z.log2_nonneg; lia|].
    assert (Z.log2 b < Z.of_nat k) by (apply Z.log2_lt_pow2; lia). lia.
Qed.
Lemma sfc_states (k : nat) r l q phi n : forall s, 0 < r -> words_of (Z.of_nat k) s -> words_of (Z.of_nat k) (state_after (sfc (Z.of_nat k) r l q phi) n s).
Proof. induction n as [|n IH]; intros s R W; [exact W|]. cbn [state_after]. apply IH; [exact R|]. apply sfc_words; assumption. Qed.
Lemma sfc_states_inj (k : nat) r l q phi n : 0 < r -> 0 < l -> forall s t, words_of (Z.of_nat k) s -> words_of (Z.of_nat k) t -> state_after (sfc (Z.of_nat k) r l q phi) n s = state_after (sfc (Z.of_nat k) r l q phi) n t -> s = t.
Proof.
  intros R LL. induction n as [|n IH]; intros s t W T E; [exact E|]. cbn [state_after] in E. apply IH in E; [|apply sfc_words; assumption|apply sfc_words; assumption]. apply sfc_inj in E; assumption.
Qed.
(** The word that counts. *)
Definition counter_of (s : four) : Z := snd s.
Definition counter2_of (s : four) : Z := let '(_, _, v, _) := s in v.
Lemma counts (k : nat) (g : gen four) (c : four -> Z) phi : (forall s, c (snd (g s)) = wrap (Z.of_nat k) (c s + phi)) -> forall n s, wrap (Z.of_nat k) (c (state_after g n s)) = wrap (Z.of_nat k) (c s + Z.of_nat n * phi).
Proof.
  intros H. induction n as [|n IH]; intros s; [cbn [state_after]; f_equal; lia|]. cbn [state_after]. rewrite IH, H. unfold wrap. rewrite Z.add_mod_idemp_l by (pose proof (p2_pos k); lia). f_equal. lia.
Qed.
Lemma no_return (k : nat) (g : gen four) (c : four -> Z) phi s n : (forall s, c (snd (g s)) = wrap (Z.of_nat k) (c s + phi)) -> Z.odd phi = true -> state_after g n s = s -> (p2 k | Z.of_nat n).
Proof.
  intros H O E. pose proof (counts k g c phi H n s) as C. rewrite E in C. unfold wrap in C. pose proof (p2_pos k) as P. apply (odd_div k phi); [exact O|]. apply Z.mod_divide; [lia|].
  replace (phi * Z.of_nat n) with ((c s + Z.of_nat n * phi) - c s) by lia. rewrite Zminus_mod, <- C, Z.sub_diag. apply Z.mod_0_l. lia.
Qed.
