From Coq Require Import ZArith Bool List Lia ZifyBool Arith.
From Verif Require Import RndModel RndSpec RndProofs RndProofs2.
Import ListNotations.
Local Open Scope Z_scope.

Notation w64 := (word_of (Z.of_nat 64)).
Definition wordlist (w : list Z) : Prop := Forall w64 w.
Lemma w64_64 x : w64 x <-> word_of 64 x.
Proof. reflexivity. Qed.
Lemma put_length x w : forall j, length (put j x w) = length w.
Proof. induction w as [|y w IH]; intros [|j]; cbn; auto. Qed.
Lemma put_word x w : forall j i, (j < length w)%nat -> word (put j x w) i = if (i =? j)%nat then x else word w i.
Proof.
  unfold word. induction w as [|y w IH]; intros [|j] [|i] H; cbn in *; try lia; try reflexivity. apply IH. lia.
Qed.
Lemma put_wordlist x w : w64 x -> wordlist w -> forall j, wordlist (put j x w).
Proof. intros X W. induction W as [|y w Y W IH]; intros [|j]; cbn; constructor; auto. apply IH. Qed.
Lemma word_in w j : wordlist w -> w64 (word w j).
Proof.
  intros W. unfold word. destruct (Nat.ltb_spec j (length w)) as [H|H]; [|rewrite nth_overflow by lia; unfold word_of; cbn; lia]. unfold wordlist in W. rewrite Forall_forall in W. apply W, nth_In, H.
Qed.
Lemma words_eq w w' : length w = length w' -> (forall i, (i < length w)%nat -> word w i = word w' i) -> w = w'.
Proof. intros L H. apply nth_ext with 0 0; [exact L|exact H]. Qed.
(** Putting a value that can be undone. *)
Lemma put_inj (F : list Z -> nat -> Z) w w' j : length w = length w' -> (j < length w)%nat -> wordlist w -> wordlist w' ->
  ((forall i, i <> j -> word w i = word w' i) -> F w j = F w' j -> word w j = word w' j) -> put j (F w j) w = put j (F w' j) w' -> w = w'.
Proof.
  intros L J W W' H E. assert (O : forall i, i <> j -> word w i = word w' i).
  { intros i N. pose proof (put_word (F w j) w j i J) as A. pose proof (put_word (F w' j) w' j i ltac:(lia)) as B. rewrite E in A. rewrite A in B. destruct (Nat.eqb_spec i j); [lia|exact B]. }
  assert (Q : F w j = F w' j). { pose proof (put_word (F w j) w j j J) as A. pose proof (put_word (F w' j) w' j j ltac:(lia)) as B. rewrite E in A. rewrite A, Nat.eqb_refl in B. exact B. }
  apply words_eq; [exact L|]. intros i I. destruct (Nat.eq_dec i j) as [->|N]; auto.
Qed.
Lemma xs25_word x : w64 x -> w64 (xs25 x).
Proof.
  intros B. unfold xs25, word_of in *. split; [apply Z.lxor_nonneg; split; intros _; [apply Z.shiftr_nonneg|]; apply B|].
  destruct (Z.eq_dec (Z.lxor x (Z.shiftr x 25)) 0) as [->|N]; [apply p2_pos|]. assert (0 <= Z.lxor x (Z.shiftr x 25)) by (apply Z.lxor_nonneg; split; intros _; [apply Z.shiftr_nonneg|]; apply B).
  destruct (Z.eq_dec x 0) as [->|NB]; [cbn in N; lia|]. assert (Z.log2 x < 64) by (apply Z.log2_lt_pow2; cbn in *; lia). pose proof (Z.log2_nonneg x).
  apply Z.log2_lt_pow2; [lia|]. apply Z.le_lt_trans with (Z.max (Z.log2 x) (Z.log2 (Z.shiftr x 25))); [apply Z.log2_lxor; [apply B|apply Z.shiftr_nonneg, B]|].
  apply Z.max_lub_lt; [cbn; lia|]. rewrite Z.log2_shiftr by lia. apply Z.max_lub_lt; cbn; lia.
Qed.
Lemma xs25_inj x y : w64 x -> w64 y -> xs25 x = xs25 y -> x = y.
Proof. intros X Y E. apply xs_inj with (Z.of_nat 64) 25; auto; lia. Qed.
Lemma wrap64 x : w64 (wrap 64 x).
Proof. apply Z.mod_pos_bound. lia. Qed.
Lemma sub_inj_l x y z : w64 x -> w64 y -> wrap 64 (x - z) = wrap 64 (y - z) -> x = y.
Proof. intros X Y E. apply (add_inj 64 x y (- z)); auto. Qed.
Lemma sub_inj_r x y z : w64 x -> w64 y -> wrap 64 (z - x) = wrap 64 (z - y) -> x = y.
Proof.
  unfold word_of, wrap. change (Z.of_nat 64) with 64. intros X Y E. assert (D : (2 ^ 64 | x - y)).
  { apply Z.mod_divide; [lia|]. replace (x - y) with ((z - y) - (z - x)) by lia. rewrite Zminus_mod, E, Z.sub_diag. reflexivity. }
  destruct D as (q & D). assert (q = 0) by lia. lia.
Qed.
Lemma mul_inj m x y : Z.odd m = true -> w64 x -> w64 y -> wrap 64 (x * m) = wrap 64 (y * m) -> x = y.
Proof. intros O X Y E. apply (mod_inj 64 m x y O X Y E). Qed.

(** ** The mixing is one-to-one. *)
Lemma within_inj n : forall i w w', length w = length w' -> (0 < length w)%nat -> wordlist w -> wordlist w' -> mix_within n i w = mix_within n i w' -> w = w'.
Proof.
  induction n as [|n IH]; intros i w w' L P W W' E; [exact E|]. cbn [mix_within] in E. rewrite <- L in E. set (j := (i mod length w)%nat) in *. assert (J : (j < length w)%nat) by (apply Nat.mod_upper_bound; lia).
  apply IH in E; [|rewrite !put_length; exact L|rewrite put_length; exact P|apply put_wordlist; [apply xs25_word, wrap64|exact W]|apply put_wordlist; [apply xs25_word, wrap64|exact W']].
  apply (put_inj (fun w j => xs25 (wrap 64 (word w j * MUL_MCG64))) w w' j L J W W'); [|exact E]. cbn beta. intros _ Q.
  apply xs25_inj in Q; try apply wrap64. apply mul_inj in Q; auto using word_in.
Qed.
Lemma between_words n : forall w, wordlist w -> wordlist (mix_between n w) /\ length (mix_between n w) = length w.
Proof.
  induction n as [|n IH]; intros w W; cbn [mix_between]; [auto|]. destruct (IH (put (n mod length w) (xs25 (wrap 64 (word w (n mod length w) - wrap 64 (word w (S n mod length w) * MUL_LCG64)))) w)) as (A & B); [apply put_wordlist; [apply xs25_word, wrap64|exact W]|].
  split; [exact A|]. rewrite B. apply put_length.
Qed.
Lemma between_inj n : forall w w', length w = length w' -> (2 <= length w)%nat -> wordlist w -> wordlist w' -> mix_between n w = mix_between n w' -> w = w'.
Proof.
  induction n as [|n IH]; intros w w' L P W W' E; [exact E|]. cbn [mix_between] in E. rewrite <- L in E. set (j := (n mod length w)%nat) in *. assert (J : (j < length w)%nat) by (apply Nat.mod_upper_bound; lia).
  set (e := (S n mod length w)%nat) in *. assert (NE : e <> j).
  { unfold e, j. pose proof (Nat.div_mod n (length w) ltac:(lia)) as D. pose proof (Nat.mod_upper_bound n (length w) ltac:(lia)) as B. pose proof (Nat.div_mod (S n) (length w) ltac:(lia)) as D'. pose proof (Nat.mod_upper_bound (S n) (length w) ltac:(lia)) as B'. intros X. rewrite X in D'. destruct (Nat.le_gt_cases (S n / length w) (n / length w)) as [Q|Q]; [pose proof (Nat.mul_le_mono_l _ _ (length w) Q)|pose proof (Nat.mul_le_mono_l _ _ (length w) Q) as Q'; rewrite Nat.mul_succ_r in Q']; lia. }
  apply IH in E; [|rewrite !put_length; exact L|rewrite put_length; exact P|apply put_wordlist; [apply xs25_word, wrap64|exact W]|apply put_wordlist; [apply xs25_word, wrap64|exact W']].
  apply (put_inj (fun w j => xs25 (wrap 64 (word w j - wrap 64 (word w e * MUL_LCG64)))) w w' j L J W W'); [|exact E]. cbn beta. intros O Q.
  apply xs25_inj in Q; try apply wrap64. rewrite (O e NE) in Q. apply sub_inj_l in Q; auto using word_in.
Qed.
(** ** The absorption is one-to-one in the input while every word is hit at most once. *)
Lemma absorb_length w j x : length (absorb w j x) = length w.
Proof. apply put_length. Qed.
Lemma absorb_words_list w j x : wordlist w -> wordlist (absorb w j x).
Proof. intros W. apply put_wordlist; [apply xs25_word, wrap64|exact W]. Qed.
Definition chunk (input : list Z) (i : nat) : Z := le_word (firstn 8 (skipn (i * 8) input)).
Definition absorbed (x : Z) : Z := xs25 (wrap 64 (ODD_PHI64 - wrap 64 (x * MUL_LCG64))).
Lemma absorbed_inj x y : w64 x -> w64 y -> absorbed x = absorbed y -> x = y.
Proof. intros X Y E. apply xs25_inj in E; try apply wrap64. apply sub_inj_r in E; try apply wrap64. apply mul_inj in E; auto. Qed.
Lemma absorb_at n : forall i input w, wordlist w -> (i + n <= length w)%nat -> (forall k, (i <= k < length w)%nat -> word w k = ODD_PHI64) ->
  let w' := absorb_words n i input w in
  wordlist w' /\ length w' = length w /\ (forall k, (i <= k < i + n)%nat -> word w' k = absorbed (chunk input k)) /\ (forall k, (k < i \/ i + n <= k)%nat -> word w' k = word w k).
Proof.
  induction n as [|n IH]; intros i input w W N P; cbn zeta; cbn [absorb_words].
  - split; [exact W|]. split; [reflexivity|]. split; [intros k K; lia|reflexivity].
  - rewrite Nat.mod_small by lia. fold (chunk input i). set (v := absorb w i (chunk input i)).
    assert (V : forall k, word v k = if (k =? i)%nat then absorbed (chunk input i) else word w k). { intros k. unfold v, absorb. rewrite put_word by lia. rewrite (P i) by lia. reflexivity. }
    assert (VL : length v = length w) by apply put_length.
    destruct (IH (S i) input v) as (A & B & C & D); [apply absorb_words_list, W|lia|intros k K; rewrite V; destruct (Nat.eqb_spec k i); [lia|apply P; lia]|].
    split; [exact A|]. split; [lia|]. split.
    + intros k K. destruct (Nat.eq_dec k i) as [->|NK]; [rewrite D by lia; rewrite V, Nat.eqb_refl; reflexivity|apply C; lia].
    + intros k K. rewrite D by lia. rewrite V. destruct (Nat.eqb_spec k i); [lia|reflexivity].
Qed.
(** Words and bytes. *)
Lemma le_word_bound l : byte_list l -> 0 <= le_word l < 256 ^ Z.of_nat (length l).
Proof.
  intros B. induction B as [|x l X B IH]; [cbn; lia|]. cbn [le_word length]. rewrite Nat2Z.inj_succ, Z.pow_succ_r by lia. lia.
Qed.
Lemma le_word_inj l : forall l', byte_list l -> byte_list l' -> length l = length l' -> le_word l = le_word l' -> l = l'.
Proof.
  induction l as [|x l IH]; intros [|y l'] B B' L E; try discriminate; [reflexivity|]. cbn [le_word] in E. inversion B; inversion B'; subst. injection L as L. assert (x = y) by lia. assert (le_word l = le_word l') by lia. subst. f_equal. apply IH; auto.
Qed.
Lemma byte_firstn n l : byte_list l -> byte_list (firstn n l).
Proof. intros B. apply Forall_forall. intros x X. unfold byte_list in B. rewrite Forall_forall in B. apply B. rewrite <- (firstn_skipn n l). apply in_or_app. left. exact X. Qed.
Lemma byte_skipn n l : byte_list l -> byte_list (skipn n l).
Proof. intros B. apply Forall_forall. intros x X. unfold byte_list in B. rewrite Forall_forall in B. apply B. rewrite <- (firstn_skipn n l). apply in_or_app. right. exact X. Qed.
Lemma byte_le n : forall x, byte_list (le_bytes n x).
Proof. induction n as [|n IH]; intros x; cbn; constructor; [apply Z.mod_pos_bound; lia|apply IH]. Qed.
Lemma le_word_64 l : byte_list l -> (length l <= 8)%nat -> w64 (le_word l).
Proof.
  intros B L. pose proof (le_word_bound l B) as H. unfold word_of. assert (256 ^ Z.of_nat (length l) <= 256 ^ 8) by (apply Z.pow_le_mono_r; lia). change (2 ^ Z.of_nat 64) with (256 ^ 8). lia.
Qed.
Lemma chunk_64 input i : byte_list input -> w64 (chunk input i).
Proof. intros B. apply le_word_64; [apply byte_firstn, byte_skipn, B|]. rewrite firstn_length. lia. Qed.
Lemma chunks_eq n : forall l l', byte_list l -> byte_list l' -> length l = (n * 8)%nat -> length l' = (n * 8)%nat -> (forall i, (i < n)%nat -> chunk l i = chunk l' i) -> l = l'.
Proof.
  induction n as [|n IH]; intros l l' B B' L L' H; [destruct l, l'; try discriminate; reflexivity|].
  rewrite <- (firstn_skipn 8 l), <- (firstn_skipn 8 l'). f_equal.
  - apply le_word_inj; [apply byte_firstn, B|apply byte_firstn, B'|rewrite !firstn_length; lia|exact (H O ltac:(lia))].
  - apply IH; [apply byte_skipn, B|apply byte_skipn, B'|rewrite skipn_length; lia|rewrite skipn_length; lia|].
    intros i I. pose proof (H (S i) ltac:(lia)) as E. unfold chunk in *. assert (SK : forall (x : list Z), skipn (i * 8) (skipn 8 x) = skipn (S i * 8) x).
    { intros x. change (S i * 8)%nat with (8 + i * 8)%nat. generalize (i * 8)%nat. clear. intros m. do 8 (destruct x as [|? x]; [cbn; now rewrite ?skipn_nil|]). reflexivity. }
    rewrite !SK. exact E.
Qed.
Definition absorb_all (input : list Z) (W : nat) : list Z := absorb_rest input (absorb_words (length input / 8) 0 input (repeat ODD_PHI64 W)).
Lemma phi64 : w64 ODD_PHI64.
Proof. unfold word_of. vm_compute. split; [discriminate|reflexivity]. Qed.
Lemma repeat_words W : wordlist (repeat ODD_PHI64 W).
Proof. apply Forall_forall. intros x X. apply repeat_spec in X. subst. exact phi64. Qed.
Lemma word_repeat W k : (k < W)%nat -> word (repeat ODD_PHI64 W) k = ODD_PHI64.
Proof. revert W. unfold word. induction k as [|k IH]; intros [|W] H; cbn; try lia; auto. apply IH. lia. Qed.
Lemma absorb_all_words input W : wordlist (absorb_all input W) /\ ((length input / 8 <= W)%nat -> length (absorb_all input W) = W).
Proof.
  unfold absorb_all. assert (G : forall n i w, wordlist w -> wordlist (absorb_words n i input w) /\ length (absorb_words n i input w) = length w).
  { induction n as [|n IH]; intros i w H; cbn [absorb_words]; [auto|]. match goal with |- context [absorb_words n (S i) input ?z] => destruct (IH (S i) z) as (A & B) end; [apply absorb_words_list, H|]. split; [exact A|]. rewrite B. apply absorb_length. }
  destruct (G (length input / 8)%nat O _ (repeat_words W)) as (A & B). unfold absorb_rest. destruct (_ =? _)%nat.
  - split; [exact A|]. intros _. rewrite B. apply repeat_length.
  - split; [apply absorb_words_list, A|]. intros _. rewrite absorb_length, B. apply repeat_length.
Qed.
Lemma absorb_inj W input input' : byte_list input -> byte_list input' -> length input = length input' -> (length input <= 8 * W)%nat -> absorb_all input W = absorb_all input' W -> input = input'.
Proof.
  intros B B' L N E. set (n := (length input / 8)%nat) in *. pose proof (Nat.div_mod (length input) 8 ltac:(lia)) as DM. pose proof (Nat.mod_upper_bound (length input) 8 ltac:(lia)) as MB. fold n in DM. set (r := (length input mod 8)%nat) in *.
  unfold absorb_all in E. rewrite <- L in E. fold n in E.
  assert (AT : forall inp, let v := absorb_words n 0 inp (repeat ODD_PHI64 W) in wordlist v /\ length v = W /\ (forall k, (k < n)%nat -> word v k = absorbed (chunk inp k)) /\ (forall k, (n <= k < W)%nat -> word v k = ODD_PHI64)).
  { intros inp. cbn zeta. destruct (absorb_at n 0 inp (repeat ODD_PHI64 W)) as (Q1 & Q2 & Q3 & Q4); [apply repeat_words|rewrite repeat_length; lia|intros k K; apply word_repeat; rewrite repeat_length in K; lia|].
    rewrite repeat_length in Q2. split; [exact Q1|]. split; [exact Q2|]. split; [intros k K; apply Q3; lia|]. intros k K. rewrite Q4 by lia. apply word_repeat. lia. }
  pose proof (AT input) as (V1 & V2 & V3 & V4). pose proof (AT input') as (V1' & V2' & V3' & V4'). set (v := absorb_words n 0 input (repeat ODD_PHI64 W)) in *. set (v' := absorb_words n 0 input' (repeat ODD_PHI64 W)) in *.
  (* the whole words *)
  assert (CH : (forall k, (k < n)%nat -> word v k = word v' k) -> forall i, (i < n)%nat -> chunk (firstn (n * 8) input) i = chunk (firstn (n * 8) input') i).
  { intros H i I. assert (F : forall x : list Z, length x = length input -> chunk (firstn (n * 8) x) i = chunk x i).
    { intros x X. unfold chunk. f_equal. rewrite skipn_firstn_comm, firstn_firstn. f_equal. lia. }
    rewrite !F by lia. apply absorbed_inj; [apply chunk_64, B|apply chunk_64, B'|]. rewrite <- V3, <- V3' by exact I. apply H, I. }
  assert (FI : (forall k, (k < n)%nat -> word v k = word v' k) -> firstn (n * 8) input = firstn (n * 8) input').
  { intros H. apply chunks_eq with n; [apply byte_firstn, B|apply byte_firstn, B'|rewrite firstn_length; lia|rewrite firstn_length; lia|]. apply CH, H. }
  rewrite <- (firstn_skipn (n * 8) input), <- (firstn_skipn (n * 8) input').
  unfold absorb_rest in E. rewrite <- L in E. fold n in E. rewrite !skipn_length in E. rewrite <- L in E. replace (length input - n * 8)%nat with r in E by lia. destruct (Nat.eqb_spec r 0) as [R|R].
  - rewrite E in FI. rewrite FI by reflexivity. f_equal. rewrite (skipn_all2 input) by lia. rewrite (skipn_all2 input') by lia. reflexivity.
  - assert (NW : (n < W)%nat) by lia. rewrite V2, V2' in E. set (j := (W - 1)%nat) in *.
    set (x := le_word (skipn (n * 8) input ++ skipn r (le_bytes 8 MUL_MCG64))) in *. set (x' := le_word (skipn (n * 8) input' ++ skipn r (le_bytes 8 MUL_MCG64))) in *.
    assert (AV : forall k, word (absorb v j x) k = if (k =? j)%nat then absorbed x else word v k). { intros k. unfold absorb. rewrite put_word by lia. rewrite (V4 j) by lia. reflexivity. }
    assert (AV' : forall k, word (absorb v' j x') k = if (k =? j)%nat then absorbed x' else word v' k). { intros k. unfold absorb. rewrite put_word by lia. rewrite (V4' j) by lia. reflexivity. }
    rewrite FI.
    + f_equal. assert (X : absorbed x = absorbed x') by (pose proof (AV j) as P; pose proof (AV' j) as P'; rewrite Nat.eqb_refl in P, P'; rewrite <- P, <- P', E; reflexivity).
      assert (BX : forall inp, byte_list inp -> length inp = length input -> byte_list (skipn (n * 8) inp ++ skipn r (le_bytes 8 MUL_MCG64)) /\ length (skipn (n * 8) inp ++ skipn r (le_bytes 8 MUL_MCG64)) = 8%nat).
      { intros inp BI LI. split; [apply Forall_app; split; [apply byte_skipn, BI|apply byte_skipn, byte_le]|]. rewrite app_length, !skipn_length, le_bytes_len. lia. }
      destruct (BX input B eq_refl) as (BX1 & BX2). destruct (BX input' B' ltac:(lia)) as (BX3 & BX4).
      apply absorbed_inj in X; [|apply le_word_64; [exact BX1|lia]|apply le_word_64; [exact BX3|lia]]. apply le_word_inj in X; [|exact BX1|exact BX3|lia]. apply app_inv_tail in X. exact X.
    + intros k K. pose proof (AV k) as P. pose proof (AV' k) as P'. destruct (Nat.eqb_spec k j); [lia|]. rewrite <- P, <- P', E. reflexivity.
Qed.
(** ** All of it *)
Lemma seed_words_len input W : (length input <= 8 * W)%nat -> wordlist (absorb_all input W) /\ length (absorb_all input W) = W.
Proof. intros L. destruct (absorb_all_words input W) as (A & B). split; [exact A|]. apply B. apply Nat.div_le_upper_bound; lia. Qed.
Lemma within_words n : forall i w, wordlist w -> wordlist (mix_within n i w) /\ length (mix_within n i w) = length w.
Proof.
  induction n as [|n IH]; intros i w W; cbn [mix_within]; [auto|]. match goal with |- context [mix_within n (S i) ?z] => destruct (IH (S i) z) as (A & B) end; [apply put_wordlist; [apply xs25_word, wrap64|exact W]|]. split; [exact A|]. rewrite B. apply put_length.
Qed.
Lemma seed_words_eq input W : (1 <= W)%nat -> seed_words input (8 * W) = mix_within (W * 2) 0 (mix_between (W * 2) (absorb_all input W)).
Proof.
  intros H. unfold seed_words. replace ((8 * W + 7) / 8)%nat with W; [rewrite repeat_length; reflexivity|]. replace (8 * W + 7)%nat with (7 + W * 8)%nat by lia. rewrite Nat.div_add by lia. reflexivity.
Qed.
Lemma seed_words_ok input W : (1 <= W)%nat -> (length input <= 8 * W)%nat -> wordlist (seed_words input (8 * W)) /\ length (seed_words input (8 * W)) = W.
Proof.
  intros H N. rewrite seed_words_eq by exact H. destruct (seed_words_len input W N) as (A & B). destruct (between_words (W * 2) _ A) as (C & D). destruct (within_words (W * 2) 0 _ C) as (E & F). split; [exact E|]. lia.
Qed.
Lemma seed_words_inj W input input' : (2 <= W)%nat -> byte_list input -> byte_list input' -> length input = length input' -> (length input <= 8 * W)%nat -> seed_words input (8 * W) = seed_words input' (8 * W) -> input = input'.
Proof.
  intros H B B' L N E. rewrite !seed_words_eq in E by lia. destruct (seed_words_len input W N) as (A1 & A2). destruct (seed_words_len input' W ltac:(lia)) as (A3 & A4).
  destruct (between_words (W * 2) _ A1) as (C1 & C2). destruct (between_words (W * 2) _ A3) as (C3 & C4).
  apply within_inj in E; [|congruence|lia|exact C1|exact C3]. apply between_inj in E; [|congruence|lia|exact A1|exact A3]. apply absorb_inj in E; auto.
Qed.
Lemma le_bytes_inj n : forall x y, 0 <= x < 256 ^ Z.of_nat n -> 0 <= y < 256 ^ Z.of_nat n -> le_bytes n x = le_bytes n y -> x = y.
Proof.
  induction n as [|n IH]; intros x y X Y E; [cbn in *; lia|]. cbn [le_bytes] in E. injection E as E1 E2. rewrite Nat2Z.inj_succ, Z.pow_succ_r in X, Y by lia.
  apply IH in E2; [|split; [apply Z.div_pos; lia|apply Z.div_lt_upper_bound; lia]|split; [apply Z.div_pos; lia|apply Z.div_lt_upper_bound; lia]].
  rewrite (Z.div_mod x 256), (Z.div_mod y 256) by lia. lia.
Qed.
Lemma concat_inj w : forall w', wordlist w -> wordlist w' -> length w = length w' -> concat (map (le_bytes 8) w) = concat (map (le_bytes 8) w') -> w = w'.
Proof.
  induction w as [|x w IH]; intros [|y w'] W W' L E; try discriminate; [reflexivity|]. cbn [map concat] in E. inversion W; inversion W'; subst. injection L as L.
  assert (H8 : le_bytes 8 x = le_bytes 8 y /\ concat (map (le_bytes 8) w) = concat (map (le_bytes 8) w')).
  { assert (F := f_equal (firstn 8) E). assert (G := f_equal (skipn 8) E). rewrite !firstn_app, !le_bytes_len, !Nat.sub_diag in F. rewrite !skipn_app, !le_bytes_len, !Nat.sub_diag in G. rewrite !firstn_all2 in F by (rewrite le_bytes_len; lia). rewrite !(skipn_all2 (le_bytes 8 _)) in G by (rewrite le_bytes_len; lia). cbn [firstn skipn app] in F, G. rewrite !app_nil_r in F. auto. }
  destruct H8 as (E1 & E2). f_equal; [|apply IH; auto]. apply le_bytes_inj in E1; [exact E1| |]; assumption.
Qed.
Lemma concat_len w : length (concat (map (le_bytes 8) w)) = (8 * length w)%nat.
Proof. induction w as [|x w IH]; [reflexivity|]. cbn [map concat length]. rewrite app_length, IH, le_bytes_len. lia. Qed.
Lemma seeder_inj W input input' : (2 <= W)%nat -> byte_list input -> byte_list input' -> length input = length input' -> (length input <= 8 * W)%nat -> seeder input (8 * W) = seeder input' (8 * W) -> input = input'.
Proof.
  intros H B B' L N E. destruct (seed_words_ok input W ltac:(lia) N) as (A1 & A2). destruct (seed_words_ok input' W ltac:(lia) ltac:(lia)) as (A3 & A4).
  apply (seed_words_inj W); auto. unfold seeder in E. rewrite !firstn_all2 in E by (rewrite concat_len; lia). apply concat_inj in E; auto. congruence.
Qed.
(** ** The generators one by one *)
Lemma lcg_out k mul add s : 0 <= k -> Z.even k = true -> word_of k s -> 0 <= fst (lcg k mul add s) < 2 ^ (k / 2).
Proof.
  unfold word_of. intros K E W. cbn. rewrite Z.shiftr_div_pow2 by (apply Z.div_pos; lia). apply Z.even_spec in E. destruct E as (h & ->). rewrite (Z.mul_comm 2 h), Z.div_mul by lia. replace (2 * h) with (h + h) in W by lia. rewrite Z.pow_add_r in W by lia.
  split; [apply Z.div_pos; [lia|apply Z.pow_pos_nonneg; lia]|apply Z.div_lt_upper_bound; [apply Z.pow_pos_nonneg; lia|lia]].
Qed.
Lemma pcg_out k r mul add s : 0 <= k -> 0 <= fst (pcg k r mul add s) < 2 ^ (k / 2).
Proof. intros K. cbn. apply Z.mod_pos_bound. apply Z.pow_pos_nonneg; [lia|apply Z.div_pos; lia]. Qed.
Definition terminates {S} (ni : gen S) (s : S) : Prop := forall range, 0 < range < 2 ^ 32 -> exists fuel x s', pick ni fuel range s = Some (x, s').
Lemma terminates_of {S} (ni : gen S) s : (forall r, 0 < r < 2 ^ 32 -> exists n, r <? Z.land (output ni n s) (mask r) = false) -> terminates ni s.
Proof.
  intros H range R. unfold pick. destruct (Z.eqb_spec range 1) as [->|N]; [exists O; eauto|]. unfold wrap. rewrite Z.mod_small by lia. destruct (H (range - 1) ltac:(lia)) as (n & E). destruct (pick_loop_found ni (range - 1) n s E) as (m & _ & P & _).
  exists (Datatypes.S n). eauto.
Qed.
Lemma term_wide (g : gen Z) (k : nat) a c b d s : linear g (Z.of_nat k) a c -> (forall s, word_of (Z.of_nat k) s -> 0 <= fst (g s) < 2 ^ b) -> zeros g d s -> 0 < b -> b * 2 ^ Z.of_nat d = 32 -> word_of (Z.of_nat k) s -> terminates (wide g b d) s.
Proof. intros L O Z B D W. apply terminates_of. intros r R. apply zero_word; auto. intros i. apply O. apply (linear_words g k a c L i s W). Qed.
Lemma term_narrow (g : gen Z) s : zeros g 0 s -> terminates (narrow g 32) s.
Proof. intros Z. apply terminates_of. intros r R. apply zero_narrow; auto. Qed.
Lemma simple_zeros s : word_of 48 s -> zeros simple 0 s.
Proof.
  intros W j. pose proof (linear_words simple 48 _ _ simple_linear j s W) as J.
  destruct (lcg_reach simple 48 0x5DEECE66D 0xB simple_linear eq_refl eq_refl 0 (state_after simple j s) 107048004364969 ltac:(lia) J) as (q & Q); [unfold word_of; cbn; lia|apply Z.divide_1_l|].
  exists q. rewrite output_shift. unfold output. rewrite Q. vm_compute. reflexivity.
Qed.
Lemma simple_out s : 0 <= fst (simple s) < 2 ^ 32.
Proof. cbn. apply Z.mod_pos_bound. lia. Qed.
(** The values picked. *)
Lemma pick_spec {S} (ni : gen S) fuel range s x s' : 0 < range < 2 ^ 32 -> pick ni fuel range s = Some (x, s') -> 0 <= x < range /\
  (range = 1 /\ s' = s \/ exists n m, x = output ni n s mod 2 ^ m /\ s' = state_after ni (Datatypes.S n) s /\ range <= 2 ^ m < 2 * range /\ forall i, (i < n)%nat -> range <= output ni i s mod 2 ^ m).
Proof.
  intros R. unfold pick. destruct (Z.eqb_spec range 1) as [->|N]; [intros [= <- <-]; split; [lia|left; auto]|]. unfold wrap. rewrite Z.mod_small by lia. intros H. destruct (pick_loop_sound ni (range - 1) fuel s x s' H) as (n & -> & -> & H3 & H4).
  rewrite masked in * by lia. set (m := Z.log2 (range - 1) + 1) in *. assert (P : 0 < 2 ^ m) by (apply Z.pow_pos_nonneg; [lia|]; unfold m; pose proof (Z.log2_nonneg (range - 1)); lia).
  pose proof (Z.mod_pos_bound (output ni n s) (2 ^ m) P). split; [lia|]. right. exists n, m. split; [reflexivity|]. split; [reflexivity|]. split.
  - pose proof (Z.log2_spec (range - 1) ltac:(lia)) as LS. rewrite <- Z.add_1_r in LS. fold m in LS. assert (2 ^ m = 2 * 2 ^ (Z.log2 (range - 1))) by (unfold m; rewrite Z.pow_add_r by (pose proof (Z.log2_nonneg (range - 1)); lia); lia). lia.
  - intros i I. pose proof (H4 i I) as Q. rewrite masked in Q by lia. fold m in Q. lia.
Qed.
Lemma pick_words range : 1 < range < 2 ^ 32 -> exists m, 0 <= m <= 32 /\ range <= 2 ^ m < 2 * range /\
  forall w v, 0 <= w < 2 ^ 32 -> 0 <= v < range -> (pick (fun s : unit => (w, s)) 1 range tt = Some (v, tt) <-> exists i, 0 <= i < 2 ^ (32 - m) /\ w = v + i * 2 ^ m).
Proof.
  intros R. exists (Z.log2 (range - 1) + 1). set (m := Z.log2 (range - 1) + 1). destruct (mask_ones (range - 1) ltac:(lia)) as (_ & L). assert (M : 0 <= m <= 32) by (unfold m; lia). split; [exact M|].
  assert (P : 0 < 2 ^ m) by (apply Z.pow_pos_nonneg; lia).
  assert (RM : range <= 2 ^ m < 2 * range). { pose proof (Z.log2_spec (range - 1) ltac:(lia)) as LS. rewrite <- Z.add_1_r in LS. fold m in LS. assert (2 ^ m = 2 * 2 ^ (Z.log2 (range - 1))) by (unfold m; rewrite Z.pow_add_r by lia; lia). lia. }
  split; [exact RM|]. intros w v W V. unfold pick. destruct (Z.eqb_spec range 1); [lia|]. unfold wrap. rewrite Z.mod_small by lia. cbn [pick_loop]. rewrite masked by lia. fold m.
  assert (S32 : 2 ^ 32 = 2 ^ (32 - m) * 2 ^ m) by (rewrite <- Z.pow_add_r by lia; f_equal; lia).
  split.
  - destruct (range - 1 <? w mod 2 ^ m) eqn:Q; [discriminate|]. intros [= E]. exists (w / 2 ^ m). pose proof (Z.div_mod w (2 ^ m) ltac:(lia)). split; [split; [apply Z.div_pos; lia|apply Z.div_lt_upper_bound; lia]|lia].
  - intros (i & I & ->). rewrite Z.mod_add by lia. rewrite Z.mod_small by lia. destruct (Z.ltb_spec (range - 1) v); [lia|reflexivity].
Qed.
Lemma int32_id z q : - 2 ^ 31 <= z < 2 ^ 31 -> int32 (z + q * 2 ^ 32) = z.
Proof.
  intros Z. unfold int32. rewrite Z.mod_add by lia. destruct (Z.ltb_spec z 0) as [N|N].
  - replace (z mod 2 ^ 32) with (z + 2 ^ 32) by (apply Z.mod_unique with (-1); lia). destruct (Z.ltb_spec (z + 2 ^ 32) (2 ^ 31)); lia.
  - rewrite Z.mod_small by lia. destruct (Z.ltb_spec z (2 ^ 31)); lia.
Qed.
Lemma in_range_ok {S} (ni : gen S) fuel lo hi s x s' : - 2 ^ 31 <= lo -> lo <= hi -> hi < 2 ^ 31 -> pick_in_range ni fuel lo hi s = Value x s' -> lo <= x <= hi.
Proof.
  intros A B C. unfold pick_in_range. destruct (Z.eqb_spec (wrap 32 (hi - lo + 1)) 0) as [Z0|Z0]; [discriminate|]. destruct (pick ni fuel (wrap 32 (hi - lo + 1)) s) as [[y t]|] eqn:P; [|discriminate]. intros [= <- <-].
  unfold wrap in *. destruct (Z.eq_dec (hi - lo + 1) (2 ^ 32)) as [E|E]; [rewrite E in Z0; cbn in Z0; lia|]. rewrite Z.mod_small in P by lia. apply pick_spec in P; [|lia]. destruct P as (P & _).
  assert (I : int32 (int32 y + lo) = y + lo).
  { assert (D : exists q, int32 y = y + q * 2 ^ 32) by (unfold int32; rewrite Z.mod_small by lia; destruct (_ <? _); [exists 0|exists (-1)]; lia).
    destruct D as (q & ->). replace (y + q * 2 ^ 32 + lo) with (y + lo + q * 2 ^ 32) by lia. apply int32_id. lia. }
  rewrite I. lia.
Qed.
Lemma srand_words x : word_of 64 x -> exists a b c d, seed_words (le_bytes 8 x) 32 = [a; b; c; d] /\ srand x = (a, b, c, d) /\ words_of 64 (srand x).
Proof.
  intros X. unfold srand. destruct (seed_words_ok (le_bytes 8 x) 4 ltac:(lia)) as (A & B); [rewrite le_bytes_len; lia|]. change (8 * 4)%nat with 32%nat in *.
  destruct (seed_words (le_bytes 8 x) 32) as [|a [|b [|c [|d [|e l]]]]]; try discriminate. exists a, b, c, d. split; [reflexivity|]. split; [reflexivity|]. unfold wordlist in A. repeat match goal with H : Forall _ (_ :: _) |- _ => inversion H; subst; clear H end. cbn. auto.
Qed.
