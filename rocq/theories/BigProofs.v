(** Words, lengths, signs; addition, negation, subtraction, comparison. *)
From Coq Require Import ZArith List Bool Lia.
From Verif Require Import BigModel BigSpec.
Import ListNotations.
Open Scope Z_scope.

Notation BB := 4294967296.
Definition pw (n : nat) : Z := BB ^ Z.of_nat n.
Lemma pw_pos n : 0 < pw n. Proof. apply Z.pow_pos_nonneg; lia. Qed.
Lemma pw_S n : pw (S n) = BB * pw n. Proof. unfold pw. rewrite Nat2Z.inj_succ, Z.pow_succ_r by lia. reflexivity. Qed.
Lemma pw_0 : pw 0 = 1. Proof. reflexivity. Qed.
Lemma pw_add n m : pw (n + m) = pw n * pw m. Proof. unfold pw. rewrite Nat2Z.inj_add, Z.pow_add_r by lia. reflexivity. Qed.
Lemma pw_le n m : (n <= m)%nat -> pw n <= pw m. Proof. intros. unfold pw. apply Z.pow_le_mono_r; lia. Qed.
Lemma pw_lt n m : (n < m)%nat -> pw n < pw m. Proof. intros. unfold pw. apply Z.pow_lt_mono_r; lia. Qed.
Lemma pw_2 n : pw n = 2 ^ (32 * Z.of_nat n). Proof. unfold pw. change BB with (2 ^ 32). rewrite <- Z.pow_mul_r by lia. reflexivity. Qed.
Lemma Half_2 : Half = 2 ^ 8191. Proof. reflexivity. Qed.
Lemma Full_2 : Full = 2 ^ 8192. Proof. reflexivity. Qed.
Lemma Full_Half : Full = 2 * Half. Proof. unfold Full, Half. change 8192 with (Z.succ 8191). rewrite Z.pow_succ_r by lia. reflexivity. Qed.
Lemma Half_pos : 0 < Half. Proof. unfold Half. apply Z.pow_pos_nonneg; lia. Qed.
Lemma Full_pw : Full = pw 256. Proof. rewrite pw_2. reflexivity. Qed.
Lemma Half_top : Half = 2147483648 * pw 255. Proof. rewrite pw_2. change 2147483648 with (2 ^ 31). rewrite <- Z.pow_add_r by lia. reflexivity. Qed.
Global Opaque Half Full pw.

Lemma uval_cons x r : uval (x :: r) = x + BB * uval r. Proof. reflexivity. Qed.
Lemma word_lim x : word x -> 0 <= x < BB. Proof. exact (fun H => H). Qed.
Lemma word_mk x : 0 <= x < BB -> word x. Proof. exact (fun H => H). Qed.
Lemma uval_bound l : Forall word l -> 0 <= uval l < pw (length l).
Proof.
  induction 1 as [|x l X F IH]; [cbn [length]; rewrite pw_0; cbn; lia|]. rewrite uval_cons. cbn [length]. rewrite pw_S. apply word_lim in X. lia.
Qed.
Lemma uval_app a b : uval (a ++ b) = uval a + pw (length a) * uval b.
Proof. induction a as [|x a IH]; [cbn [app length]; rewrite pw_0; change (uval []) with 0; lia|]. cbn [app length]. rewrite !uval_cons, IH, pw_S. lia. Qed.
Lemma uval_zeros n : uval (zeros n) = 0. Proof. induction n; [reflexivity|]. cbn [zeros repeat]. rewrite uval_cons. fold (zeros n). lia. Qed.
Lemma uval_split n l : uval l = uval (firstn n l) + pw (length (firstn n l)) * uval (skipn n l).
Proof. rewrite <- uval_app, firstn_skipn. reflexivity. Qed.
Lemma zeros_len n : length (zeros n) = n. Proof. apply repeat_length. Qed.
Lemma zeros_words n : Forall word (zeros n). Proof. induction n; constructor; auto. apply word_mk. lia. Qed.
Lemma uval_all0 l : (forall i, nth i l 0 = 0) -> uval l = 0.
Proof. induction l as [|x l IH]; intros H; [reflexivity|]. rewrite uval_cons, IH by (intros i; apply (H (S i))). pose proof (H O) as H0. cbn in H0. lia. Qed.
Lemma uval_0_inv l : Forall word l -> uval l = 0 -> forall i, nth i l 0 = 0.
Proof.
  induction 1 as [|x l X F IH]; intros E i; [destruct i; reflexivity|]. rewrite uval_cons in E. pose proof (uval_bound l F). apply word_lim in X.
  destruct i; cbn [nth]; [lia|apply IH; lia].
Qed.
Lemma nth_word l i : Forall word l -> 0 <= nth i l 0 < BB.
Proof. intros F. revert i. induction F as [|x l X F IH]; intros [|i]; cbn [nth]; try lia; [apply word_lim in X; lia|apply IH]. Qed.
Lemma nth_firstn_skip (l : list Z) n i : nth (n + i) l 0 = nth i (skipn n l) 0.
Proof. revert l. induction n as [|n IH]; intros [|x l]; cbn; auto. destruct i; reflexivity. Qed.
Lemma uval_low n l : (forall i, (n <= i)%nat -> nth i l 0 = 0) -> uval l = uval (firstn n l).
Proof.
  intros H. rewrite (uval_split n l) at 1. rewrite (uval_all0 (skipn n l)); [lia|]. intros i.
  rewrite <- nth_firstn_skip. apply H. lia.
Qed.
Lemma firstn_words n l : Forall word l -> Forall word (firstn n l).
Proof. intros F. revert n. induction F; intros [|n]; cbn; constructor; auto. Qed.
Lemma skipn_words n l : Forall word l -> Forall word (skipn n l).
Proof. intros F. revert n. induction F; intros [|n]; cbn; auto. Qed.
Lemma uval_inj a : forall b, length a = length b -> Forall word a -> Forall word b -> uval a = uval b -> a = b.
Proof.
  induction a as [|x a IH]; intros [|y b] L Fa Fb E; try discriminate; auto. inversion Fa; inversion Fb; subst.
  rewrite !uval_cons in E. repeat match goal with H : word _ |- _ => apply word_lim in H end.
  pose proof (uval_bound a ltac:(assumption)). pose proof (uval_bound b ltac:(assumption)).
  assert (x = y /\ uval a = uval b) as [-> E2] by lia. f_equal. apply IH; auto.
Qed.
Lemma uval_nth_le l i : Forall word l -> nth i l 0 * pw i <= uval l.
Proof.
  intros F. revert i. induction F as [|x l X F IH]; intros i; [destruct i; cbn; lia|]. apply word_lim in X. rewrite uval_cons.
  destruct i; cbn [nth]; [rewrite pw_0; pose proof (uval_bound l F); lia|]. specialize (IH i). rewrite pw_S. lia.
Qed.
Lemma uval_small l i : Forall word l -> uval l < pw i -> forall j, (i <= j)%nat -> nth j l 0 = 0.
Proof.
  intros F L j Hj. pose proof (uval_nth_le l j F). pose proof (nth_word l j F). pose proof (pw_le i j Hj). pose proof (pw_pos i). nia.
Qed.

(** The sign. *)
Lemma land_top x : 0 <= x < BB -> negb (Z.land x 2147483648 =? 0) = (2147483648 <=? x).
Proof.
  intros H. change 2147483648 with (2 ^ 31) at 1. rewrite <- (Z.mul_1_l (2 ^ 31)).
  assert (E : Z.land x (1 * 2 ^ 31) = (x / 2 ^ 31) mod 2 * 2 ^ 31).
  { apply Z.bits_inj'. intros n Hn. rewrite Z.land_spec, !Z.mul_pow2_bits by lia. destruct (Z.ltb_spec n 31) as [L|L].
    - rewrite !(Z.testbit_neg_r _ (n - 31)) by lia. apply andb_false_r.
    - rewrite <- (Z.add_0_l (n - 31)) at 1. destruct (Z.eq_dec n 31) as [->|N].
      + change (31 - 31) with 0. change (0 + 0) with 0. rewrite Z.bit0_mod, Zmod_mod, <- Z.bit0_mod || idtac.
        change (Z.testbit 1 0) with true. rewrite andb_true_r. rewrite !Z.testbit_odd, Z.shiftr_0_r, Z.shiftr_div_pow2 by lia.
        rewrite <- Z.bit0_odd. rewrite Z.bit0_odd. rewrite !Zmod_odd. destruct (Z.odd (x / 2 ^ 31)); reflexivity.
      + rewrite Z.add_0_l. rewrite (Z.bits_above_log2 1) by (cbn; lia). rewrite andb_false_r. symmetry. apply Z.bits_above_log2; [apply Z.mod_pos_bound; lia|].
        pose proof (Z.mod_pos_bound (x / 2 ^ 31) 2 ltac:(lia)). assert ((x / 2 ^ 31) mod 2 = 0 \/ (x / 2 ^ 31) mod 2 = 1) as [-> | ->] by lia; cbn; lia. }
  rewrite E. clear E. change (2 ^ 31) with 2147483648. pose proof (Z.div_mod x 2147483648 ltac:(lia)). pose proof (Z.mod_pos_bound x 2147483648 ltac:(lia)).
  assert (x / 2147483648 = 0 \/ x / 2147483648 = 1) as [E|E] by lia; rewrite E in *; cbn; lia.
Qed.
Lemma neg_words_val d : length d = 256%nat -> Forall word d -> neg_words d = (Half <=? uval d).
Proof.
  intros L F. unfold neg_words. change (MAX_LEN - 1)%nat with 255%nat. rewrite land_top by (apply nth_word, F).
  assert (E : d = firstn 255 d ++ [nth 255 d 0]).
  { rewrite <- (firstn_skipn 255 d) at 1. f_equal. assert (L2 : length (skipn 255 d) = 1%nat) by (rewrite skipn_length; lia).
    rewrite <- (firstn_skipn 255 d) at 2. rewrite app_nth2 by (rewrite firstn_length; lia). rewrite firstn_length, L. change (255 - Nat.min 255 256)%nat with 0%nat.
    destruct (skipn 255 d) as [|x [|? ?]]; try discriminate. reflexivity. }
  assert (U : uval d = uval (firstn 255 d) + pw 255 * nth 255 d 0).
  { rewrite E at 1. rewrite uval_app, firstn_length, L. change (Nat.min 255 256) with 255%nat. rewrite uval_cons. change (uval []) with 0. lia. }
  pose proof (uval_bound _ (firstn_words 255 d F)) as Bd. rewrite firstn_length, L in Bd. change (Nat.min 255 256) with 255%nat in Bd.
  rewrite U, Half_top. pose proof (nth_word d 255 F). pose proof (pw_pos 255). set (w := nth 255 d 0) in *. set (p := pw 255) in *. clearbody w p.
  destruct (Z.leb_spec 2147483648 w); destruct (Z.leb_spec (2147483648 * p) (uval (firstn 255 d) + p * w)); auto; nia.
Qed.

(** Lengths. *)
Definition size (d : list Z) := length d = 256%nat.
Lemma find_length_SS d m : find_length d (S (S m)) = if nth (S m) d 0 =? 0 then find_length d (S m) else S (S m). Proof. reflexivity. Qed.
Lemma find_length_spec d n : (1 <= n)%nat -> (1 <= find_length d n <= n)%nat /\ (forall i, (find_length d n <= i < n)%nat -> nth i d 0 = 0) /\
  (find_length d n = 1%nat \/ nth (find_length d n - 1) d 0 <> 0).
Proof.
  induction n as [|n IH]; [lia|]. intros _. destruct n as [|m]; [cbn; split; [lia|]; split; [intros; lia|auto]|].
  rewrite find_length_SS. destruct (Z.eqb_spec (nth (S m) d 0) 0) as [E|E].
  - destruct IH as (A & C & D); [lia|]. split; [lia|]. split; [|exact D]. intros i Hi. destruct (Nat.eq_dec i (S m)) as [->|N]; [exact E|apply C; lia].
  - split; [lia|]. split; [intros; lia|]. right. replace (S (S m) - 1)%nat with (S m) by lia. exact E.
Qed.
Lemma denotes_reduce d n z : size d -> Forall word d -> in_range z -> uval d = z mod Full -> (n <= 256)%nat ->
  (forall i, (n <= i)%nat -> nth i d 0 = 0) -> denotes (reduce_len d n) z.
Proof.
  intros S F R V N Z0. unfold reduce_len. destruct n as [|n].
  - constructor; cbn [data len]; auto; try (cbn; lia). intros. apply Z0. lia.
  - destruct (find_length_spec d (Datatypes.S n)) as (A & C & D); [lia|]. rewrite Nat.max_l by lia.
    constructor; cbn [data len]; auto; try lia. intros i Hi. destruct (Nat.lt_ge_cases i (Datatypes.S n)); [apply C; lia|apply Z0; auto].
Qed.
Lemma mod_Full_range z : in_range z -> z mod Full = if z <? 0 then z + Full else z.
Proof.
  unfold in_range. pose proof Half_pos. pose proof Full_Half. intros. destruct (Z.ltb_spec z 0).
  - replace z with (z + Full + (-1) * Full) at 1 by lia. rewrite Z_mod_plus by lia. apply Z.mod_small. lia.
  - apply Z.mod_small. lia.
Qed.
Lemma neg_iff b z : denotes b z -> is_negative b = (z <? 0).
Proof.
  intros [S F R V _ _ _]. unfold is_negative. rewrite neg_words_val by auto. rewrite V, mod_Full_range by auto. unfold in_range in R.
  pose proof Half_pos. pose proof Full_Half. destruct (Z.ltb_spec z 0); lia.
Qed.
Lemma denotes_uniq b z z' : denotes b z -> denotes b z' -> z = z'.
Proof.
  intros [_ _ R V _ _ _] [_ _ R' V' _ _ _]. rewrite V in V'. rewrite !mod_Full_range in V' by auto. unfold in_range in *.
  pose proof Half_pos. pose proof Full_Half. destruct (Z.ltb_spec z 0), (Z.ltb_spec z' 0); lia.
Qed.
Lemma denotes_inj b b' z : denotes b z -> denotes b' z -> b = b'.
Proof.
  intros [S F R V L A X] [S' F' R' V' L' A' X']. destruct b as [d n], b' as [d' n']. cbn [data len] in *.
  assert (d = d') as <- by (apply uval_inj; auto; congruence). f_equal.
  destruct (Nat.lt_trichotomy n n') as [C|[C|C]]; auto.
  - destruct X' as [X'|X']; [lia|]. destruct X'. apply A. lia.
  - destruct X as [X|X]; [lia|]. destruct X. apply A'. lia.
Qed.
Lemma denotes_max a b x y n : denotes a x -> denotes b y -> n = Nat.max (len a) (len b) -> (1 <= n <= 256)%nat /\
  (forall i, (n <= i)%nat -> nth i (data a) 0 = 0) /\ (forall i, (n <= i)%nat -> nth i (data b) 0 = 0).
Proof.
  intros [_ _ _ _ L A _] [_ _ _ _ L' A' _] ->. split; [lia|]. split; intros; [apply A|apply A']; lia.
Qed.

(** Addition. *)
Lemma u64_small x : 0 <= x < 18446744073709551616 -> u64 x = x. Proof. intros. apply Z.mod_small. lia. Qed.
Lemma u32_small x : 0 <= x < BB -> u32 x = x. Proof. intros. apply Z.mod_small. unfold B. lia. Qed.
Lemma add_loop_spec n : forall a b c r c', Forall word a -> Forall word b -> (n <= length a)%nat -> (n <= length b)%nat -> 0 <= c <= 1 -> add_loop n a b c = (r, c') ->
  length r = length a /\ Forall word r /\ 0 <= c' <= 1 /\ skipn n r = skipn n a /\ uval (firstn n r) + c' * pw n = uval (firstn n a) + uval (firstn n b) + c.
Proof.
  induction n as [|n IH]; intros a b c r c' Fa Fb La Lb Hc E.
  - injection E as <- <-. rewrite pw_0. cbn [firstn]. change (uval []) with 0. repeat split; auto; lia.
  - destruct a as [|x a], b as [|y b]; cbn [length] in *; try lia. cbn [add_loop] in E. unfold B in E.
    inversion Fa as [|? ? X Fa']; inversion Fb as [|? ? Y Fb']; subst. apply word_lim in X, Y. rewrite (u64_small (x + y + c)) in E by lia.
    destruct (add_loop n a b ((x + y + c) / BB)) as [r1 c1] eqn:E1. injection E as <- <-.
    assert (D : (x + y + c) = BB * ((x + y + c) / BB) + (x + y + c) mod BB) by (apply Z.div_mod; lia).
    pose proof (Z.mod_pos_bound (x + y + c) BB ltac:(lia)) as M.
    destruct (IH a b ((x + y + c) / BB) r1 c1) as (I1 & I2 & I3 & I4 & I5); auto; try lia.
    cbn [length firstn skipn]. rewrite !uval_cons, pw_S. split; [lia|]. split; [constructor; [apply word_mk; lia|auto]|]. split; [lia|]. split; [auto|]. lia.
Qed.
Lemma set_length l i x : length (set l i x) = length l.
Proof.
  unfold set. rewrite app_length. destruct (skipn i l) as [|y t] eqn:E.
  - rewrite firstn_length. cbn. apply (f_equal (@length Z)) in E. rewrite skipn_length in E. cbn in E. lia.
  - apply (f_equal (@length Z)) in E. rewrite skipn_length in E. cbn [length] in *. rewrite firstn_length. lia.
Qed.
Lemma set_words l i x : Forall word l -> word x -> Forall word (set l i x).
Proof.
  intros F X. unfold set. apply Forall_app. split; [apply firstn_words, F|]. pose proof (skipn_words i l F). destruct (skipn i l); auto. inversion H; constructor; auto.
Qed.
Lemma nth_set l i x j : (i < length l)%nat -> nth j (set l i x) 0 = if Nat.eqb i j then x else nth j l 0.
Proof.
  revert l j. induction i as [|i IH]; intros [|y l] j L; cbn [length] in L; try lia.
  - destruct j; reflexivity.
  - destruct j; [reflexivity|]. specialize (IH l j ltac:(lia)). unfold set in *. cbn [firstn skipn app nth Nat.eqb]. exact IH.
Qed.
Lemma uval_set l i x : (i < length l)%nat -> uval (set l i x) = uval l + (x - nth i l 0) * pw i.
Proof.
  revert l. induction i as [|i IH]; intros [|y l] L; cbn [length] in L; try lia.
  - unfold set. cbn [firstn skipn app nth]. rewrite !uval_cons, pw_0. lia.
  - specialize (IH l ltac:(lia)). unfold set in *. cbn [firstn skipn app nth]. rewrite !uval_cons, IH, pw_S. lia.
Qed.
Lemma nth_above_skip r a n : skipn n r = skipn n a -> forall i, (n <= i)%nat -> nth i r 0 = nth i a 0.
Proof. intros E i Hi. replace i with (n + (i - n))%nat by lia. rewrite !nth_firstn_skip, E. reflexivity. Qed.
Lemma sum_mod x y : in_range x -> in_range y -> (x mod Full + y mod Full) mod Full = (x + y) mod Full.
Proof. intros. symmetry. apply Zplus_mod. Qed.
Lemma Full_pos : 0 < Full. Proof. pose proof Half_pos. rewrite Full_Half. lia. Qed.

Definition sgn_of u := if u <? Half then u else u - Full.
Lemma sgn_of_range u : 0 <= u < Full -> in_range (sgn_of u) /\ sgn_of u mod Full = u.
Proof.
  intros H. pose proof Full_Half. pose proof Half_pos. unfold sgn_of, in_range. destruct (Z.ltb_spec u Half).
  - split; [lia|]. apply Z.mod_small. lia.
  - split; [lia|]. replace (u - Full) with (u + (-1) * Full) by lia. rewrite Z_mod_plus by lia. apply Z.mod_small. lia.
Qed.
Lemma sgn_of_mod z : in_range z -> sgn_of (z mod Full) = z.
Proof.
  intros R. rewrite mod_Full_range by auto. unfold in_range, sgn_of in *. pose proof Full_Half. destruct (Z.ltb_spec z 0).
  - destruct (Z.ltb_spec (z + Full) Half); lia.
  - destruct (Z.ltb_spec z Half); lia.
Qed.
Lemma add_core a b x y d c n : denotes a x -> denotes b y -> n = Nat.max (len a) (len b) -> add_loop n (data a) (data b) 0 = (d, c) ->
  denotes (if negb (c =? 0) && Nat.ltb n MAX_LEN then reduce_len (set d n (u32 c)) (S n) else reduce_len d n) (sgn_of ((x + y) mod Full)).
Proof.
  intros Da Db En E. destruct (denotes_max a b x y n Da Db En) as (Hn & Za & Zb).
  destruct Da as [Sa Fa Ra Va La _ _]. destruct Db as [Sb Fb Rb Vb Lb _ _].
  destruct (add_loop_spec n (data a) (data b) 0 d c) as (I1 & I2 & I3 & I4 & I5); auto; try lia.
  pose proof (uval_low n (data a) Za) as Ua. pose proof (uval_low n (data b) Zb) as Ub.
  assert (Zd : forall i, (n <= i)%nat -> nth i d 0 = 0) by (intros i Hi; rewrite (nth_above_skip d (data a) n I4 i Hi); apply Za, Hi).
  pose proof (uval_low n d Zd) as Ud.
  pose proof (Z.mod_pos_bound (x + y) Full Full_pos) as MB. destruct (sgn_of_range _ MB) as [R1 M1].
  assert (Vs : uval d + c * pw n = uval (data a) + uval (data b)) by lia.
  assert (Ms : (uval (data a) + uval (data b)) mod Full = (x + y) mod Full) by (rewrite Va, Vb; apply sum_mod; auto).
  pose proof (uval_bound d I2) as Bd. rewrite I1, Sa, <- Full_pw in Bd.
  destruct (Z.eqb_spec c 0) as [C0|C0]; cbn [negb andb].
  - apply denotes_reduce; auto; try (unfold size; congruence); try lia. rewrite M1, <- Ms. subst c. rewrite Z.mod_small by lia. lia.
  - assert (c = 1) by lia. subst c. change MAX_LEN with 256%nat. destruct (Nat.ltb_spec n 256) as [N|N].
    + rewrite u32_small by lia. apply denotes_reduce; auto.
      * unfold size. rewrite set_length. congruence.
      * apply set_words; auto. apply word_mk. lia.
      * rewrite M1, <- Ms. rewrite uval_set by (rewrite I1, Sa; lia). rewrite Zd by lia.
        assert (Y : uval d < pw n). { rewrite Ud. pose proof (uval_bound _ (firstn_words n d I2)) as Y. rewrite firstn_length, I1, Sa in Y. replace (Nat.min n 256) with n in Y by lia. lia. }
        pose proof (pw_le (S n) 256 ltac:(lia)) as Y2. rewrite <- Full_pw, pw_S in Y2. pose proof (pw_pos n). rewrite Z.mod_small by lia. lia.
      * intros i Hi. rewrite nth_set by (rewrite I1, Sa; lia). destruct (Nat.eqb_spec n i); [lia|]. apply Zd. lia.
    + assert (N6 : n = 256%nat) by lia. rewrite N6, <- Full_pw in Vs. apply denotes_reduce; auto; try (unfold size; congruence); try lia.
      rewrite M1, <- Ms. replace (uval (data a) + uval (data b)) with (uval d + 1 * Full) by lia.
      rewrite Z_mod_plus by (pose proof Full_pos; lia). rewrite Z.mod_small; lia.
Qed.
Lemma sgn_wrap z : - Full <= z < Full -> sgn_of (z mod Full) = if z <? - Half then z + Full else if z <? Half then z else z - Full.
Proof.
  intros H. pose proof Full_Half. pose proof Half_pos. destruct (Z.ltb_spec z (- Half)).
  - replace (z mod Full) with ((z + Full) mod Full) by (rewrite <- (Z_mod_plus z 1 Full) by lia; f_equal; lia). apply sgn_of_mod. unfold in_range. lia.
  - destruct (Z.ltb_spec z Half); [apply sgn_of_mod; unfold in_range; lia|].
    replace (z mod Full) with ((z - Full) mod Full) by (rewrite <- (Z_mod_plus z (-1) Full) by lia; f_equal; lia). apply sgn_of_mod. unfold in_range. lia.
Qed.
Lemma add_spec a b x y : denotes a x -> denotes b y -> (in_range (x + y) -> gives (add a b) (x + y)) /\ (~ in_range (x + y) -> add a b = Stop Assert).
Proof.
  intros Da Db. unfold add. destruct (add_loop _ _ _ 0) as [d c] eqn:E.
  pose proof (add_core a b x y d c _ Da Db eq_refl E) as D. cbv zeta. set (r := if _ && _ then _ else _) in *. clearbody r. clear E.
  rewrite (neg_iff _ _ Da), (neg_iff _ _ Db), (neg_iff _ _ D). destruct (d_range _ _ Da) as [A1 A2]. destruct (d_range _ _ Db) as [B1 B2].
  pose proof Full_Half. pose proof Half_pos. rewrite sgn_wrap in * by lia. unfold in_range. split; intros H1.
  - exists r. destruct (Z.ltb_spec (x + y) (- Half)); [lia|]. destruct (Z.ltb_spec (x + y) Half); [|lia]. split; [|exact D].
    destruct (Z.ltb_spec x 0), (Z.ltb_spec y 0), (Z.ltb_spec (x + y) 0); try reflexivity; lia.
  - destruct (Z.ltb_spec (x + y) (- Half)); [|destruct (Z.ltb_spec (x + y) Half); [lia|]].
    + destruct (Z.ltb_spec x 0), (Z.ltb_spec y 0), (Z.ltb_spec (x + y + Full) 0); try reflexivity; lia.
    + destruct (Z.ltb_spec x 0), (Z.ltb_spec y 0), (Z.ltb_spec (x + y - Full) 0); try reflexivity; lia.
Qed.
