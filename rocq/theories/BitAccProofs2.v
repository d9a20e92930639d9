From Coq Require Import ZArith List Bool Lia ZifyBool.
From Verif Require Import BitAccModel BitAccSpec BitAccProofs.
Import ListNotations.
Open Scope Z_scope.

Lemma tb_field n f i : 0 <= f_start f <= f_end f -> 0 <= i -> Z.testbit (field n f) i = (i <? len f) && Z.testbit n (i + f_start f).
Proof.
  intros. unfold field. rewrite tb_mod by (unfold len; lia). rewrite Z.div_pow2_bits by lia. reflexivity.
Qed.
Lemma field_range n f : 0 <= f_start f <= f_end f -> 0 <= field n f < 2 ^ len f.
Proof. intros. apply mod_range. unfold len; lia. Qed.
Lemma tb_value_of f x i : 0 <= f_start f <= f_end f -> len f <= f_width f -> 0 <= x < 2 ^ len f -> 0 <= i ->
  Z.testbit (value_of f x) i = if f_signed f then (i <? f_width f) && (if i <? len f then Z.testbit x i else Z.testbit x (len f - 1)) else Z.testbit x i.
Proof.
  intros. unfold value_of. destruct (f_signed f); [|reflexivity]. rewrite tb_mod by (unfold len in *; lia). rewrite tb_signed by (unfold len in *; lia). reflexivity.
Qed.
Lemma field_of_replaced n f v n' : 0 <= f_start f <= f_end f -> replaced n f v n' -> field n' f = v mod 2 ^ len f.
Proof.
  intros F [_ H]. apply Z.bits_inj'. intros i Hi. rewrite tb_field, tb_mod by (unfold len; lia). destruct (i <? len f) eqn:E; [|reflexivity]. cbn [andb].
  rewrite H by lia. unfold len in E. replace ((f_start f <=? i + f_start f) && (i + f_start f <=? f_end f)) with true by lia. f_equal. lia.
Qed.
Lemma field_of_other n f g v n' : 0 <= f_start f <= f_end f -> 0 <= f_start g <= f_end g -> apart f g -> replaced n f v n' -> field n' g = field n g.
Proof.
  intros F G A [_ H]. apply Z.bits_inj'. intros i Hi. rewrite !tb_field by auto. destruct (i <? len g) eqn:E; [|reflexivity]. cbn [andb].
  rewrite H by lia. unfold len in E. unfold apart in A. replace ((f_start f <=? i + f_start g) && (i + f_start g <=? f_end f)) with false by lia. reflexivity.
Qed.
Lemma replaced_range bits n f v n' : fits bits f -> 0 <= n < 2 ^ bits -> replaced n f v n' -> 0 <= n' < 2 ^ bits.
Proof.
  intros F N [R H]. unfold fits in F. split; [auto|]. apply tb_small; [lia|auto|]. intros i Hi. rewrite H by lia.
  replace ((f_start f <=? i) && (i <=? f_end f)) with false by lia. apply (tb_high bits); lia.
Qed.
Lemma replaced_unique n f v a b : replaced n f v a -> replaced n f v b -> a = b.
Proof. intros [_ A] [_ B]. apply Z.bits_inj'. intros i Hi. rewrite A, B by auto. reflexivity. Qed.
Lemma replaced_mod n f v n' : 0 <= f_start f <= f_end f -> replaced n f (v mod 2 ^ len f) n' <-> replaced n f v n'.
Proof.
  intros F. unfold replaced. split; intros [A H]; split; auto; intros i Hi; rewrite H by auto; destruct (_ && _) eqn:E; auto;
    rewrite tb_mod by (unfold len; lia); unfold len; replace (i - f_start f <? f_end f - f_start f + 1) with true by lia; reflexivity.
Qed.

Lemma extract_plain bits x f : fits bits f -> 0 <= x < 2 ^ bits -> extract bits false x f = value_of f (field x f).
Proof.
  intros F X. pose proof F as (F1 & F2 & F3 & _). assert (0 < bits) by lia. apply Z.bits_inj'. intros i Hi.
  rewrite tb_value_of by (auto; apply field_range; auto). rewrite !tb_field by (unfold len in *; lia). unfold extract. destruct (f_signed f).
  - cbv zeta. set (L := bits - f_end f - 1).
    assert (E1 : (if negb (L =? 0) then shl bits x L else x) = shl bits x L).
    { destruct (L =? 0) eqn:E; [|reflexivity]. cbn [negb]. unfold shl. replace (bits <=? L) with false by lia. replace L with 0 by lia.
      rewrite Z.shiftl_0_r, Z.mod_small by lia. reflexivity. }
    rewrite E1. pose proof (shl_range bits x L ltac:(lia) ltac:(lia)) as R.
    assert (E2 : (if negb (L + f_start f =? 0) then ashr bits (shl bits x L) (L + f_start f) else shl bits x L) = ashr bits (shl bits x L) (L + f_start f)).
    { destruct (L + f_start f =? 0) eqn:E; [|reflexivity]. cbn [negb]. apply Z.bits_inj'. intros j Hj. rewrite tb_ashr by lia.
      replace (L + f_start f) with 0 by lia. rewrite Z.add_0_r. destruct (j <? bits) eqn:J; [reflexivity|]. cbn [andb]. apply (tb_high bits); lia. }
    rewrite E2. unfold sext_trunc. rewrite tb_mod by (unfold len in *; lia). destruct (i <? f_width f) eqn:W; [|reflexivity]. cbn [andb].
    assert (R2 : 0 <= ashr bits (shl bits x L) (L + f_start f) < 2 ^ bits) by (unfold ashr; apply mod_range; lia).
    rewrite tb_signed, !tb_ashr, !tb_shl by lia. unfold len in *.
    replace (bits - 1 <? bits) with true by lia. cbn [andb].
    destruct (i <? bits) eqn:B; cbn [andb].
    + destruct (i + (L + f_start f) <? bits) eqn:C.
      * replace (i <? f_end f - f_start f + 1) with true by lia. cbn [andb]. f_equal. lia.
      * replace (i <? f_end f - f_start f + 1) with false by lia. replace (f_end f - f_start f + 1 - 1 <? f_end f - f_start f + 1) with true by lia.
        cbn [andb]. f_equal. lia.
    + replace (i <? f_end f - f_start f + 1) with false by lia. replace (f_end f - f_start f + 1 - 1 <? f_end f - f_start f + 1) with true by lia. cbn [andb].
      destruct (bits - 1 + (L + f_start f) <? bits) eqn:C; [replace (bits - 1 + (L + f_start f) <? bits) with true by lia|]; cbn [andb]; f_equal; lia.
  - cbv zeta.
    assert (E1 : (if negb (f_start f =? 0) then lshr bits x (f_start f) else x) = lshr bits x (f_start f)).
    { destruct (f_start f =? 0) eqn:E; [|reflexivity]. cbn [negb]. unfold lshr. replace (bits <=? f_start f) with false by lia. replace (f_start f) with 0 by lia.
      rewrite Z.shiftr_0_r. reflexivity. }
    rewrite E1. unfold zext_trunc. rewrite tb_mod by (unfold len in *; lia). rewrite tb_mask, tb_lshr by (lia || apply lshr_range; lia).
    unfold len in *. destruct (i <? f_end f - f_start f + 1) eqn:E; cbn [andb]; [|apply andb_false_r]. replace (i <? f_width f) with true by lia. reflexivity.
Qed.
Lemma update_replaced bits x f v : fits bits f -> 0 <= x < 2 ^ bits -> 0 <= v -> replaced x f v (value_update bits x f v).
Proof.
  intros F X V. pose proof F as (F1 & F2 & F3 & _). assert (0 < bits) by lia. unfold value_update. cbv zeta. set (L := bits - f_end f - 1).
  pose proof (ones_range bits ltac:(lia)) as RO. pose proof (shl_range bits (ones bits) L ltac:(lia) ltac:(lia)) as R1.
  pose proof (lshr_range bits _ (L + f_start f) R1 ltac:(lia)) as R2.
  set (M := shl bits (lshr bits (shl bits (ones bits) L) (L + f_start f)) (f_start f)).
  assert (RM : 0 <= M < 2 ^ bits) by (apply shl_range; lia).
  assert (TM : forall i, 0 <= i -> Z.testbit M i = (f_start f <=? i) && (i <=? f_end f)).
  { intros i Hi. unfold M. rewrite tb_shl by lia. destruct (i <? bits) eqn:B; cbn [andb]; [|lia]. destruct (Z.lt_ge_cases i (f_start f)) as [Q|Q].
    - rewrite Z.testbit_neg_r by lia. lia.
    - rewrite tb_lshr by lia. rewrite tb_shl by lia. destruct (i - f_start f + (L + f_start f) <? bits) eqn:C; cbn [andb]; [|lia].
      rewrite tb_ones by lia. lia. }
  pose proof (lnot_range bits M ltac:(lia) RM) as RN. pose proof (shl_range bits (zext_trunc bits v) (f_start f) ltac:(lia) ltac:(lia)) as RS.
  split.
  - apply Z.lor_nonneg. split; apply Z.land_nonneg; lia.
  - intros i Hi. rewrite Z.lor_spec, !Z.land_spec, tb_lnot, TM, tb_shl by lia. destruct (i <? bits) eqn:B; cbn [andb].
    + destruct ((f_start f <=? i) && (i <=? f_end f)) eqn:E; cbn [xorb].
      * rewrite andb_false_r, andb_true_r. cbn [orb]. unfold zext_trunc. rewrite tb_mod by lia. replace (i - f_start f <? bits) with true by lia. reflexivity.
      * rewrite andb_true_r, andb_false_r, orb_false_r. reflexivity.
    + replace ((f_start f <=? i) && (i <=? f_end f)) with false by lia. rewrite (tb_high bits x i) by lia. reflexivity.
Qed.
Section Int.
Variables (bits : Z) (swap : bool).
Hypotheses (HB : 0 <= bits) (HM : bits mod 8 = 0).
Lemma number_range x : 0 <= x < 2 ^ bits -> 0 <= int_number bits swap x < 2 ^ bits.
Proof. intros X. rewrite int_number_eq by auto. destruct swap; [apply bswap_range; auto|auto]. Qed.
Lemma extract_int x f : fits bits f -> 0 <= x < 2 ^ bits -> extract bits swap x f = value_of f (field (int_number bits swap x) f).
Proof.
  intros F X. rewrite <- (extract_plain bits); auto; [|apply number_range; auto]. rewrite int_number_eq by auto. unfold extract. destruct swap; reflexivity.
Qed.
Lemma assign_int x f v : fits bits f -> 0 <= x < 2 ^ bits -> 0 <= v ->
  0 <= assign bits swap x f v < 2 ^ bits /\ replaced (int_number bits swap x) f v (int_number bits swap (assign bits swap x f v)).
Proof.
  intros F X V. unfold assign. cbv zeta. rewrite (int_number_eq bits swap x) by auto. set (y := if swap then bswap bits x else x).
  assert (Y : 0 <= y < 2 ^ bits) by (unfold y; destruct swap; [apply bswap_range; auto|auto]).
  pose proof (update_replaced bits y f v F Y V) as R. pose proof (replaced_range bits y f v _ F Y R) as RR.
  assert (Q : 0 <= (if swap then bswap bits (value_update bits y f v) else value_update bits y f v) < 2 ^ bits) by (destruct swap; [apply bswap_range; auto|auto]).
  split; [exact Q|]. rewrite int_number_eq by auto. destruct swap; [rewrite bswap_twice by auto|]; exact R.
Qed.
End Int.

(** Initialisers. *)
Definition or_fields (inits : list (Field * Z)) (i : Z) : bool :=
  existsb (fun p => (f_start (fst p) <=? i) && (i <=? f_end (fst p)) && Z.testbit (snd p) (i - f_start (fst p))) inits.
Lemma const_fold bits : forall inits d, 0 <= bits -> Forall (fun p => fits bits (fst p) /\ 0 <= snd p) inits -> 0 <= d < 2 ^ bits ->
  let r := fold_left (fun d p => const_step bits d (fst p) (snd p)) inits d in
  0 <= r < 2 ^ bits /\ forall i, 0 <= i -> Z.testbit r i = or_fields inits i || Z.testbit d i.
Proof.
  induction inits as [|[f v] inits IH]; intros d B HF D; cbn [fold_left fst snd]; [split; auto|]. inversion HF as [|? ? [F V] HF']; subst. cbn [fst snd] in *.
  pose proof F as (F1 & F2 & F3 & _).
  assert (S : 0 <= const_step bits d f v < 2 ^ bits /\ forall i, 0 <= i -> Z.testbit (const_step bits d f v) i =
              (f_start f <=? i) && (i <=? f_end f) && Z.testbit v (i - f_start f) || Z.testbit d i).
  { unfold const_step. cbv zeta. set (n := f_end f - f_start f + 1).
    set (y := if n <? bits then _ else _).
    assert (Y : 0 <= y < 2 ^ bits /\ forall i, 0 <= i -> Z.testbit y i = (i <? n) && Z.testbit v i).
    { unfold y. pose proof (mod_range v bits ltac:(lia)). pose proof (ones_range bits B). destruct (n <? bits) eqn:E.
      - split; [apply land_range; [lia|apply lshr_range; lia|unfold zext_trunc; lia]|]. intros i Hi. rewrite Z.land_spec, tb_lshr, tb_ones by lia.
        unfold zext_trunc. rewrite tb_mod by lia. lia.
      - split; [unfold zext_trunc; lia|]. intros i Hi. unfold zext_trunc. rewrite tb_mod by lia. f_equal. lia. }
    destruct Y as [Y1 Y2]. set (z := if 0 <? f_start f then shl bits y (f_start f) else y).
    assert (Zr : 0 <= z < 2 ^ bits /\ forall i, 0 <= i -> Z.testbit z i = (f_start f <=? i) && (i <=? f_end f) && Z.testbit v (i - f_start f)).
    { unfold z. destruct (0 <? f_start f) eqn:E.
      - split; [apply shl_range; lia|]. intros i Hi. rewrite tb_shl by lia. destruct (f_start f <=? i) eqn:Q; cbn [andb].
        + rewrite Y2 by lia. replace (i - f_start f <? n) with (i <=? f_end f) by lia. destruct (i <=? f_end f) eqn:R; cbn [andb]; [|apply andb_false_r].
          replace (i <? bits) with true by lia. reflexivity.
        + rewrite Z.testbit_neg_r by lia. apply andb_false_r.
      - split; [auto|]. intros i Hi. rewrite Y2 by lia. replace (f_start f) with 0 by lia. rewrite Z.sub_0_r. replace (0 <=? i) with true by lia. cbn [andb].
        f_equal. lia. }
    destruct Zr as [Z1 Z2]. split; [apply lor_range; lia|]. intros i Hi. rewrite Z.lor_spec, Z2 by lia. reflexivity. }
  destruct S as [S1 S2]. destruct (IH _ B HF' S1) as [A1 A2]. split; [exact A1|]. intros i Hi. rewrite A2, S2 by lia. cbn [or_fields existsb fst snd].
  fold (or_fields inits i). rewrite !orb_assoc. f_equal. apply orb_comm.
Qed.
Lemma update_fold bits : forall inits d, 0 <= bits -> Forall (fun p => fits bits (fst p) /\ 0 <= snd p) inits -> 0 <= d < 2 ^ bits ->
  ForallOrdPairs (fun p q => apart (fst p) (fst q)) inits ->
  (forall p i, In p inits -> f_start (fst p) <= i <= f_end (fst p) -> Z.testbit d i = false) ->
  let r := fold_left (fun d p => value_update bits d (fst p) (snd p)) inits d in
  0 <= r < 2 ^ bits /\ forall i, 0 <= i -> Z.testbit r i = or_fields inits i || Z.testbit d i.
Proof.
  induction inits as [|[f v] inits IH]; intros d B HF D HA HZ; cbn [fold_left fst snd]; [split; auto|]. inversion HF as [|? ? [F V] HF']; subst. cbn [fst snd] in *.
  inversion HA as [|? ? HA1 HA2]; subst. pose proof F as (F1 & F2 & F3 & _).
  pose proof (update_replaced bits d f v F D V) as R. pose proof (replaced_range bits d f v _ F D R) as RR. destruct R as [_ R].
  rewrite Forall_forall in HA1. rewrite Forall_forall in HF'.
  destruct (IH (value_update bits d f v) B) as [A1 A2]; [apply Forall_forall; auto|auto|auto| |].
  { intros p i Hp Hi. specialize (HF' p Hp). destruct HF' as [(G1 & G2 & _) _]. rewrite R by lia. specialize (HA1 p Hp). unfold apart in HA1. cbn [fst] in HA1.
    replace ((f_start f <=? i) && (i <=? f_end f)) with false by lia. apply (HZ p); [right; auto|lia]. }
  split; [exact A1|]. intros i Hi. rewrite A2, R by lia. cbn [or_fields existsb fst snd]. fold (or_fields inits i).
  destruct ((f_start f <=? i) && (i <=? f_end f)) eqn:E; cbn [andb orb]; [|reflexivity].
  rewrite (HZ (f, v) i (or_introl eq_refl)) by (cbn [fst]; lia). rewrite orb_false_r. apply orb_comm.
Qed.
Lemma const_is_initialize bits swap inits : 0 <= bits -> Forall (fun p => fits bits (fst p) /\ 0 <= snd p) inits ->
  ForallOrdPairs (fun p q => apart (fst p) (fst q)) inits -> const_init bits swap inits = initialize bits swap inits.
Proof.
  intros B HF HA. pose proof (pow_pos bits B). pose proof (const_fold bits inits 0 B HF ltac:(lia)) as [_ C].
  pose proof (update_fold bits inits 0 B HF ltac:(lia) HA) as [_ U]; [intros; apply Z.bits_0|].
  unfold const_init, initialize. cbv zeta. set (a := fold_left _ inits 0) in *. set (b := fold_left (fun d p => value_update bits d (fst p) (snd p)) inits 0) in *.
  assert (E : a = b) by (apply Z.bits_inj'; intros i Hi; rewrite C, U by auto; reflexivity). rewrite E. reflexivity.
Qed.
Lemma or_fields_self : forall inits f v i, ForallOrdPairs (fun p q => apart (fst p) (fst q)) inits -> In (f, v) inits ->
  f_start f <= i <= f_end f -> or_fields inits i = Z.testbit v (i - f_start f).
Proof.
  intros inits f v i HA HI Hi. induction HA as [|p l Hp HA IH]; [contradiction|]. cbn [or_fields existsb]. fold (or_fields l i). destruct HI as [->|HI].
  - cbn [fst snd]. replace ((f_start f <=? i) && (i <=? f_end f)) with true by lia. cbn [andb].
    assert (N : or_fields l i = false).
    { destruct (or_fields l i) eqn:E; [|reflexivity]. apply existsb_exists in E. destruct E as (q & Hq & E). rewrite Forall_forall in Hp. specialize (Hp q Hq).
      unfold apart in Hp. cbn [fst] in Hp. lia. }
    rewrite N, orb_false_r. reflexivity.
  - rewrite Forall_forall in Hp. specialize (Hp _ HI). unfold apart in Hp. cbn [fst] in Hp.
    replace ((f_start (fst p) <=? i) && (i <=? f_end (fst p))) with false by lia. cbn [andb orb]. apply IH; auto.
Qed.
Lemma const_int_fields bits swap inits : 0 <= bits -> bits mod 8 = 0 -> Forall (fun p => fits bits (fst p) /\ 0 <= snd p) inits ->
  ForallOrdPairs (fun p q => apart (fst p) (fst q)) inits ->
  0 <= const_init bits swap inits < 2 ^ bits /\
  forall f v, In (f, v) inits -> field (int_number bits swap (const_init bits swap inits)) f = v mod 2 ^ len f.
Proof.
  intros B M HF HA. pose proof (pow_pos bits B). pose proof (const_fold bits inits 0 B HF ltac:(lia)) as [R C].
  unfold const_init. cbv zeta. set (a := fold_left _ inits 0) in *.
  assert (Q : 0 <= (if swap then bswap bits a else a) < 2 ^ bits) by (destruct swap; [apply bswap_range; auto|auto]). split; [exact Q|].
  intros f v Hf. rewrite int_number_eq by auto. assert (E : (if swap then bswap bits (if swap then bswap bits a else a) else if swap then bswap bits a else a) = a)
    by (destruct swap; [apply bswap_twice; auto|reflexivity]). rewrite E.
  rewrite Forall_forall in HF. destruct (HF _ Hf) as [(F1 & F2 & F3 & _) V]. cbn [fst snd] in *.
  apply Z.bits_inj'. intros i Hi. rewrite tb_field, tb_mod by (unfold len in *; lia). destruct (i <? len f) eqn:L; [|reflexivity]. cbn [andb]. unfold len in L.
  rewrite C, Z.bits_0, orb_false_r by lia. rewrite (or_fields_self inits f v) by (auto; lia). f_equal. lia.
Qed.
