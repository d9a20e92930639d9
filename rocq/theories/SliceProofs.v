(** Lemmas about indexing and slicing. *)
From Coq Require Import ZArith Bool List Lia ZifyBool.
From Verif Require Import SliceModel SliceSpec.
Import ListNotations.
Local Open Scope Z_scope.

Lemma word_small v : 0 <= v < 2 ^ 64 -> word v = v. Proof. intros; unfold word; apply Z.mod_small; lia. Qed.
Lemma word_neg v : - 2 ^ 64 <= v < 0 -> word v = v + 2 ^ 64.
Proof. intros; unfold word. rewrite <- (Z.mod_add v 1) by lia. rewrite Z.mod_small by lia. lia. Qed.
Lemma word_big v : 2 ^ 64 <= v < 2 * 2 ^ 64 -> word v = v - 2 ^ 64.
Proof. intros; unfold word. rewrite <- (Z.mod_add v (-1)) by lia. rewrite Z.mod_small by lia. lia. Qed.
Lemma word_range v : 0 <= word v < 2 ^ 64. Proof. unfold word. apply Z.mod_pos_bound. lia. Qed.
Lemma word_cases v : - 2 ^ 64 <= v < 2 * 2 ^ 64 -> (v < 0 /\ word v = v + 2 ^ 64) \/ (0 <= v < 2 ^ 64 /\ word v = v) \/ (2 ^ 64 <= v /\ word v = v - 2 ^ 64).
Proof. intros. destruct (Z_lt_dec v 0). { left; split; auto; apply word_neg; lia. } destruct (Z_lt_dec v (2 ^ 64)). { right; left; split; [lia | apply word_small; lia]. } right; right; split; [lia | apply word_big; lia]. Qed.
Lemma ival_word sg v : typed sg v -> ival sg (word v) = v.
Proof. unfold typed, ival. intros H. destruct sg; cbn [andb]; [destruct (word_cases v) as [[? ->] | [[? ->] | [? ->]]]; try lia; destruct (2 ^ 63 <=? _) eqn:?; lia | apply word_small; lia]. Qed.
Lemma ival_small sg n : 0 <= n < 2 ^ 63 -> ival sg n = n. Proof. unfold ival; intros; destruct sg; cbn [andb]; [destruct (2 ^ 63 <=? n) eqn:E; lia | reflexivity]. Qed.
Lemma word_add a b : word (word a + word b) = word (a + b). Proof. unfold word. rewrite <- Z.add_mod by lia. reflexivity. Qed.
Lemma word_sub a b : word (word a - word b) = word (a - b). Proof. unfold word. rewrite <- Zminus_mod. reflexivity. Qed.
Lemma word_sub_r a b : word (a - word b) = word (a - b). Proof. unfold word. rewrite Zminus_mod_idemp_r. reflexivity. Qed.
Lemma word_sub_l a b : word (word a - b) = word (a - b). Proof. unfold word. rewrite Zminus_mod_idemp_l. reflexivity. Qed.
Lemma word_add_l a b : word (word a + b) = word (a + b). Proof. unfold word. rewrite Zplus_mod_idemp_l. reflexivity. Qed.
Lemma word_add_r a b : word (a + word b) = word (a + b). Proof. unfold word. rewrite Zplus_mod_idemp_r. reflexivity. Qed.
Lemma i32_small v : - 2 ^ 31 <= v < 2 ^ 31 -> i32 v = v. Proof. unfold i32; intros. rewrite Z.mod_small by lia. lia. Qed.

Lemma start_cases sg n v X : typed sg v -> 0 <= n < 2 ^ 63 -> X = v \/ X = n - v ->
  0 <= X <= n /\ word X = X /\ ival sg (word X) = X \/ (X < 0 \/ n < X) /\ (ival sg (word X) < 0 \/ n < ival sg (word X)).
Proof.
  unfold typed. intros V N E. destruct (Z_le_dec 0 X). 1: destruct (Z_le_dec X n).
  - left. rewrite word_small by lia. rewrite ival_small by lia. auto.
  - right. split; [lia |]. rewrite word_small by (destruct sg; lia). unfold ival. destruct sg; cbn [andb]; [destruct (2 ^ 63 <=? X) eqn:?; lia | lia].
  - right. split; [lia |]. rewrite word_neg by (destruct sg; lia). unfold ival. destruct sg; cbn [andb]; [destruct (2 ^ 63 <=? _) eqn:?; lia | lia].
Qed.

(** The range meant by the result of the analysis. *)
Definition rfirst (n : Z) (x : resolved) : Z :=
  match shp x with ConstRange => start_index x | _ => if r_sfe x then n - val (r_start x) else val (r_start x) end.
Definition rlast (n : Z) (x : resolved) : Z :=          (* the length of a range with a length, or the last index *)
  match shp x with
  | Dynamic => match r_stop x with Some o => if r_efe x then n - val o else val o | None => n - 1 end
  | ConstRange => len_index x
  | _ => const_end x
  end.
Definition coherent (sg : bool) (e : env) (n : Z) (x : resolved) : Prop :=
  match shp x with
  | ConstRange => r_len x = true /\ r_sfe x = false /\ r_efe x = false /\ - 2 ^ 31 <= len_index x < 2 ^ 31 /\ - 2 ^ 31 <= start_index x < 2 ^ 31 /\
                  (no_length e = false -> 0 <= start_index x /\ 0 <= len_index x)
  | ConstLen => r_len x = true /\ r_efe x = false /\ - 2 ^ 31 < const_end x < 2 ^ 31 /\ (is_pointer e = false -> 0 <= const_end x) /\ typed sg (val (r_start x)) /\ (no_length e = true -> r_sfe x = false)
  | ConstEnd => r_len x = false /\ r_efe x = false /\ - 2 ^ 31 < const_end x < 2 ^ 31 /\ (is_pointer e = false -> 0 <= const_end x) /\ typed sg (val (r_start x)) /\ (no_length e = true -> r_sfe x = false)
  | Dynamic => typed sg (val (r_start x)) /\ (no_length e = true -> r_sfe x = false /\ r_efe x = false /\ r_stop x <> None) /\ match r_stop x with Some o => typed sg (val o) | None => r_efe x = false /\ r_len x = false end
  end.
Definition rcount (n : Z) (x : resolved) : Z :=
  if r_len x then rlast n x else rlast n x - rfirst n x + 1.

Lemma emit_safe sg e n x : no_length e = false -> 0 <= n < 2 ^ 63 -> coherent sg e n x ->
  (r_len x = true -> 0 <= rlast n x /\ rfirst n x + rlast n x < (if sg then 2 ^ 63 else 2 ^ 64)) ->
  emit true sg e n x = (if (0 <=? rfirst n x) && (rfirst n x + rcount n x <=? n) &&
        ((if r_len x then 0 else match shp x, r_stop x with Dynamic, None => 0 | _, _ => 1 end) <=? rcount n x) then Sliced (rfirst n x) (rcount n x) else Panic).
Proof.
  intros E N C L. assert (P : is_pointer e = false) by (destruct e; try discriminate; auto).
  destruct x as [sh [sv sc] st sf ef ln ce si li]. unfold emit, slice_values, rcount, rfirst, rlast, coherent in *.
  cbn [shp r_start r_stop r_sfe r_efe r_len const_end start_index len_index val cst] in *. rewrite E, P in *. cbn [andb negb orb] in *.
  assert (ST : forall v, typed sg v -> forall f : bool, let X := if f then n - v else v in (if f then word (n - word v) else word v) = word X /\ (0 <= X <= n /\ word X = X /\ ival sg (word X) = X \/ (X < 0 \/ n < X) /\ (ival sg (word X) < 0 \/ n < ival sg (word X)))).
  { intros v V f X. split. { unfold X. destruct f; auto. apply word_sub_r. } apply start_cases with (v := v); auto. unfold X. destruct f; auto. }
  pose proof (ival_small sg n N) as IN. pose proof (ival_small true n N) as IN1.
  destruct sh; cbn [orb andb negb] in *.
  - destruct C as (TS & _ & C). destruct (ST sv TS sf) as [-> A]. set (X := if sf then n - sv else sv) in *.
    unfold gt, ge in *. rewrite IN.
    destruct st as [o |].
    + destruct (ST (val o) C ef) as [EW B]. set (Y := if ef then n - val o else val o) in *. rewrite andb_false_r. rewrite EW.
      destruct ln; cbn [andb negb].
      * specialize (L eq_refl). destruct A as [(A1 & A2 & A3) | (A1 & A2)].
        { rewrite A3, A2. replace (n <? X) with false by lia. replace (X <? 0) with false by lia. rewrite word_add_r.
          assert (Z1 : typed sg (X + Y)) by (unfold typed; destruct sg; lia). rewrite (ival_word sg _ Z1).
          rewrite word_small by (destruct sg; lia).
          destruct (n <? X + Y) eqn:Q.
          - destruct ((0 <=? X) && (X + Y <=? n) && (0 <=? Y)) eqn:Q1; [lia | reflexivity].
          - destruct ((0 <=? X) && (X + Y <=? n) && (0 <=? Y)) eqn:Q1; [| lia]. rewrite word_small by lia. f_equal; lia. }
        { destruct ((0 <=? X) && (X + Y <=? n) && (0 <=? Y)) eqn:Q1; [lia |].
          destruct (n <? ival sg (word X)) eqn:Q2; auto. destruct (ival sg (word X) <? 0) eqn:Q3; auto. lia. }
      * destruct A as [(A1 & A2 & A3) | (A1 & A2)].
        { rewrite A3, A2. replace (n <? X) with false by lia. replace (X <? 0) with false by lia.
          destruct B as [(B1 & B2 & B3) | (B1 & B2)].
          - rewrite B3, B2. destruct (Y <? X) eqn:Q1; [| destruct (n <=? Y) eqn:Q2].
            + destruct ((0 <=? X) && (X + (Y - X + 1) <=? n) && (1 <=? Y - X + 1)) eqn:Q3; [lia | auto].
            + destruct ((0 <=? X) && (X + (Y - X + 1) <=? n) && (1 <=? Y - X + 1)) eqn:Q3; [lia | auto].
            + destruct ((0 <=? X) && (X + (Y - X + 1) <=? n) && (1 <=? Y - X + 1)) eqn:Q3; [| lia]. rewrite (word_small (Y + 1)) by lia. rewrite word_small by lia. f_equal; lia.
          - destruct ((0 <=? X) && (X + (Y - X + 1) <=? n) && (1 <=? Y - X + 1)) eqn:Q3; [lia |].
            destruct (ival sg (word Y) <? X) eqn:Q1; auto. destruct (n <=? ival sg (word Y)) eqn:Q2; auto. lia. }
        { destruct ((0 <=? X) && (X + (Y - X + 1) <=? n) && (1 <=? Y - X + 1)) eqn:Q1; [lia |].
          destruct (n <? ival sg (word X)) eqn:Q2; auto. destruct (ival sg (word X) <? 0) eqn:Q3; auto. lia. }
    + destruct C as [-> ->]. destruct A as [(A1 & A2 & A3) | (A1 & A2)].
      * rewrite A3, A2. replace (n <? X) with false by lia. replace (X <? 0) with false by lia.
        destruct ((0 <=? X) && (X + (n - 1 - X + 1) <=? n) && (0 <=? n - 1 - X + 1)) eqn:Q3; [| lia]. rewrite word_small by lia. f_equal; lia.
      * destruct ((0 <=? X) && (X + (n - 1 - X + 1) <=? n) && (0 <=? n - 1 - X + 1)) eqn:Q1; [lia |].
        destruct (n <? ival sg (word X)) eqn:Q2; auto. destruct (ival sg (word X) <? 0) eqn:Q3; auto. lia.
  - destruct C as (-> & -> & CB & C0 & TS & _). specialize (C0 eq_refl). specialize (L eq_refl). destruct (ST sv TS sf) as [-> A]. set (X := if sf then n - sv else sv) in *.
    unfold gt, ge in *. rewrite IN. cbn [andb negb].
    destruct A as [(A1 & A2 & A3) | (A1 & A2)].
    + rewrite A3, A2. replace (n <? X) with false by lia. replace (X <? 0) with false by lia. rewrite word_add_r.
      assert (Z1 : typed sg (X + ce)) by (unfold typed; destruct sg; lia). rewrite (ival_word sg _ Z1).
      rewrite word_small by (destruct sg; lia).
      destruct (n <? X + ce) eqn:Q.
      * destruct ((0 <=? X) && (X + ce <=? n) && (0 <=? ce)) eqn:Q1; [lia | reflexivity].
      * destruct ((0 <=? X) && (X + ce <=? n) && (0 <=? ce)) eqn:Q1; [| lia]. rewrite word_small by lia. f_equal; lia.
    + destruct ((0 <=? X) && (X + ce <=? n) && (0 <=? ce)) eqn:Q1; [lia |].
      destruct (n <? ival sg (word X)) eqn:Q2; auto. destruct (ival sg (word X) <? 0) eqn:Q3; auto. lia.
  - destruct C as (-> & -> & CB & C0 & TS & _). specialize (C0 eq_refl). destruct (ST sv TS sf) as [-> A]. set (X := if sf then n - sv else sv) in *.
    unfold gt, ge in *. rewrite IN. cbn [andb negb].
    assert (Z1 : typed sg ce) by (unfold typed; destruct sg; lia). rewrite (ival_word sg _ Z1). rewrite (word_small ce) by lia.
    destruct A as [(A1 & A2 & A3) | (A1 & A2)].
    + rewrite A3, A2. replace (n <? X) with false by lia. replace (X <? 0) with false by lia.
      destruct (ce <? X) eqn:Q1; [| destruct (n <=? ce) eqn:Q2].
      * destruct ((0 <=? X) && (X + (ce - X + 1) <=? n) && (1 <=? ce - X + 1)) eqn:Q3; [lia | auto].
      * destruct ((0 <=? X) && (X + (ce - X + 1) <=? n) && (1 <=? ce - X + 1)) eqn:Q3; [lia | auto].
      * destruct ((0 <=? X) && (X + (ce - X + 1) <=? n) && (1 <=? ce - X + 1)) eqn:Q3; [| lia]. rewrite (word_small (ce + 1)) by lia. rewrite word_small by lia. f_equal; lia.
    + destruct ((0 <=? X) && (X + (ce - X + 1) <=? n) && (1 <=? ce - X + 1)) eqn:Q1; [lia |].
      destruct (n <? ival sg (word X)) eqn:Q2; auto. destruct (ival sg (word X) <? 0) eqn:Q3; auto. lia.
  - destruct C as (-> & -> & -> & CL & CS & C0). specialize (C0 eq_refl). unfold gt, ge in *. cbn [andb negb orb]. rewrite IN1.
    rewrite (word_small si) by lia. rewrite (word_small li) by lia. rewrite (ival_small true si) by lia.
    rewrite (word_small (si + li)) by lia. rewrite (ival_small true (si + li)) by lia.
    destruct (n <? si) eqn:Q0; [| destruct (n <? si + li) eqn:Q1].
    + destruct ((0 <=? si) && (si + li <=? n) && (0 <=? li)) eqn:Q3; [lia | auto].
    + destruct ((0 <=? si) && (si + li <=? n) && (0 <=? li)) eqn:Q3; [lia | auto].
    + destruct ((0 <=? si) && (si + li <=? n) && (0 <=? li)) eqn:Q3; [| lia]. rewrite word_small by lia. f_equal; lia.
Qed.

Ltac caseb := repeat match goal with
  | H : context [if ?b then _ else _] |- _ => let Q := fresh "Q" in destruct b eqn:Q; try discriminate
  end.

Definition least (r : range) : Z := if is_len r then 0 else match stop r with Some _ => 1 | None => 0 end.
Definition rleast (x : resolved) : Z := if r_len x then 0 else match shp x, r_stop x with Dynamic, None => 0 | _, _ => 1 end.
Lemma typed_word sg v : typed sg v -> - 2 ^ 63 <= v < 2 ^ 64. Proof. unfold typed. destruct sg; lia. Qed.

Lemma analyse_ok sg e len n r x : no_length e = false -> well_formed sg len n r -> ~ folded_tail len r -> ~ too_far n r ->
  analyse e len r = Some x ->
  coherent sg e n x /\ rfirst n x = first n r /\ rcount n x = count n r /\
  (rleast x = least r \/ (rleast x = 0 /\ 1 <= count n r) \/ (stop r = None /\ len <> None /\ rleast x = 1)) /\ (is_len r = true -> r_len x = true) /\
  (r_len x = true -> is_len r = true \/ (1 <= count n r <= 2 ^ 32 /\ first n r < 2 ^ 31)).
Proof.
  intros E (TS & TE & N & LEN & NS) NT NF A. assert (P : is_pointer e = false) by (destruct e; try discriminate; auto).
  destruct r as [[sv sc] st sf ef il].
  unfold analyse, end_part, start_part, length_part, unresolved, coherent, rcount, rlast, rfirst, folded_tail, too_far, const_stop, count, first, well_formed, fits_i64, MAX, least, rleast in *.
  rewrite E, P in *. cbn [andb orb negb start stop sfe efe is_len val cst shp r_start r_stop r_sfe r_efe r_len const_end start_index len_index] in *.
  pose proof (typed_word _ _ TS) as TW.
  assert (TE2 : match st with Some o => typed sg (val o) /\ - 2 ^ 63 <= val o < 2 ^ 64 | None => True end) by (destruct st as [o |]; auto; split; [apply TE; auto | apply (typed_word sg); apply TE; auto]).
  destruct st as [[v vc] |]; [destruct TE2 as [TE3 TE4] | destruct (NS eq_refl) as [-> ->]]; destruct len as [m |]; try (destruct (LEN m eq_refl) as [-> LN]); destruct sf, sc; try destruct vc; try destruct ef; try destruct il;
  cbn [andb orb negb start stop sfe efe is_len val cst shp r_start r_stop r_sfe r_efe r_len const_end start_index len_index] in *; clear LEN TE NS.
  all: repeat (caseb; cbn [andb orb negb start stop sfe efe is_len val cst shp r_start r_stop r_sfe r_efe r_len const_end start_index len_index] in * ).
  all: try (exfalso; apply NT; repeat split; auto; [discriminate | eexists; split; [reflexivity | reflexivity]]).
  all: injection A as <-.
  all: cbn [andb orb negb start stop sfe efe is_len val cst shp r_start r_stop r_sfe r_efe r_len const_end start_index len_index] in *.
  all: repeat match goal with
    | H : context [i32 ?v] |- _ => rewrite (i32_small v) in H by lia
    | |- context [i32 ?v] => rewrite (i32_small v) by lia
    end.
  all: repeat split; auto; try lia; try discriminate; try (intros; congruence).
  all: right; right; repeat split; discriminate.
Qed.

