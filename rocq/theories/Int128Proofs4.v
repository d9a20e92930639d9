From Coq Require Import ZArith Bool List Lia ZifyBool.
From Verif Require Import Word Int128Model Int128Spec Int128Proofs Int128Proofs2 Int128Proofs3.
Import ListNotations.
Open Scope Z_scope.
Ltac Zify.zify_post_hook ::= Z.div_mod_to_equations.

Definition lsd (base : Z) (ds : list Z) : Z := fold_right (fun d acc => d + base * acc) 0 ds.

Lemma is_zero_spec a : wf128 a -> i128_is_zero a = (uval a =? 0).
Proof. intros Ha. unfold i128_is_zero. unf. lia. Qed.

Lemma low_small r z : wf128 r -> uval r = z -> 0 <= z < 2 ^ 64 -> low r = z.
Proof. intros. unf. lia. Qed.

Lemma to_digits_spec : forall n op base, wf128 op -> 2 <= base <= 16 -> uval op < base ^ Z.of_nat n -> (1 <= n)%nat ->
  exists ds, to_digits n op base = Some ds /\ lsd base ds = uval op /\ Forall (fun d => 0 <= d < base) ds /\
    ds <> [] /\ (last ds 0 <> 0 \/ ds = [0]).
Proof.
  induction n as [|n IH]; intros op base Hop Hb Hlt Hn; [lia|].
  cbn [to_digits].
  assert (Wb : wf128 (mk128 0 base)) by (unf; lia).
  assert (Ub : uval (mk128 0 base) = base) by (unfold uval; cbn [high low]; lia).
  destruct (udivrem_spec op (mk128 0 base) Hop Wb ltac:(lia)) as (Q1 & R1 & Q2 & R2).
  rewrite Ub in Q2, R2. pose proof (uval_bounds _ Hop) as B.
  pose proof (Z.mod_pos_bound (uval op) base ltac:(lia)) as Mb.
  assert (Hlow : low (i128_urem op (mk128 0 base)) = uval op mod base).
  { apply low_small; [exact R1|exact R2|consts; lia]. }
  pose proof (Z.div_mod (uval op) base ltac:(lia)) as DM.
  rewrite is_zero_spec, Q2, Hlow by assumption.
  destruct (Z.eqb_spec (uval op / base) 0) as [Ez|Ez].
  - exists [uval op mod base]. split; [reflexivity|]. rewrite Ez in DM. cbn [lsd fold_right last].
    split; [lia|]. split; [constructor; [exact Mb|constructor]|]. split; [discriminate|].
    destruct (Z.eq_dec (uval op mod base) 0) as [E0|E0]; [right; rewrite E0; reflexivity|left; exact E0].
  - destruct n as [|n].
    { exfalso. apply Ez. apply Z.div_small. rewrite Z.pow_1_r in Hlt. lia. }
    destruct (IH (i128_udiv op (mk128 0 base)) base Q1 Hb) as (ds & E & L & F & NE & LN).
    + rewrite Q2. apply Z.div_lt_upper_bound; [lia|].
      rewrite (Nat2Z.inj_succ (S n)) in Hlt. rewrite Z.pow_succ_r in Hlt by lia. exact Hlt.
    + lia.
    + rewrite E. exists (uval op mod base :: ds). split; [reflexivity|].
      unfold lsd in L |- *. cbn [fold_right]. rewrite L, Q2.
      split; [lia|]. split; [constructor; assumption|]. split; [discriminate|].
      left. destruct ds as [|d ds]; [contradiction|]. cbn [last] in *.
      destruct LN as [LN|LN]; [exact LN|]. exfalso. apply Ez. rewrite <- Q2, <- L, LN. cbn [lsd fold_right]. lia.
Qed.

Lemma char_digit_digit d : 0 <= d < 16 -> char_digit (digit_char d) = Some d.
Proof.
  intros Hd. unfold char_digit, digit_char. destruct (Z.ltb_spec d 10).
  - replace ((48 <=? 48 + d) && (48 + d <=? 57)) with true by lia. f_equal. lia.
  - replace ((48 <=? 55 + d) && (55 + d <=? 57)) with false by lia.
    replace ((65 <=? 55 + d) && (55 + d <=? 70)) with true by lia. f_equal. lia.
Qed.

Lemma read_digits_app base s t acc v : read_digits base acc s = Some v -> read_digits base acc (s ++ t) = read_digits base v t.
Proof.
  revert acc. induction s as [|c s IH]; intros acc; cbn [read_digits app].
  - intros [= ->]. reflexivity.
  - destruct (char_digit c) as [d|]; [|discriminate]. destruct (d <? base); [|discriminate]. apply IH.
Qed.

Lemma read_digits_rev base ds : 2 <= base <= 16 -> Forall (fun d => 0 <= d < base) ds ->
  read_digits base 0 (map digit_char (rev ds)) = Some (lsd base ds).
Proof.
  intros Hb. induction 1 as [|d ds Hd F IH]; [reflexivity|].
  cbn [rev]. rewrite map_app. rewrite (read_digits_app _ _ _ _ _ IH).
  cbn [map read_digits]. rewrite char_digit_digit by lia.
  replace (d <? base) with true by lia. f_equal. cbn [lsd fold_right]. fold (lsd base ds). lia.
Qed.

Lemma canonical_rev base ds : 2 <= base <= 16 -> Forall (fun d => 0 <= d < base) ds ->
  ds <> [] -> (last ds 0 <> 0 \/ ds = [0]) -> canonical_digits (map digit_char (rev ds)).
Proof.
  intros Hb F NE [HL|HL].
  - right. destruct (exists_last NE) as (init & l & E). rewrite E in *. rewrite rev_app_distr. cbn [rev app map hd].
    split; [discriminate|]. rewrite last_last in HL.
    apply Forall_app in F. destruct F as [_ F]. inversion F; subst. unfold digit_char. destruct (Z.ltb_spec l 10); lia.
  - left. rewrite HL. reflexivity.
Qed.

Lemma pow_mono_base base n : 2 <= base -> 0 <= n -> 2 ^ n <= base ^ n.
Proof. intros. apply Z.pow_le_mono_l. lia. Qed.

Lemma i128_to_string_spec op base (sg pf : bool) : wf128 op -> 2 <= base <= 16 ->
  let v := if sg then sval op else uval op in
  exists digits, i128_to_string op base sg pf =
    Some ((if v <? 0 then [45] else @nil Z) ++ (if pf then prefix_of base else []) ++ digits)
    /\ read_digits base 0 digits = Some (Z.abs v) /\ canonical_digits digits.
Proof.
  intros Hop Hb v. pose proof (uval_bounds _ Hop) as B. unfold i128_to_string.
  assert (Em : sg && ISNEG (high op) = (v <? 0)).
  { destruct sg; subst v; cbn [andb].
    - rewrite <- is_neg_spec by assumption. reflexivity.
    - symmetry. apply Z.ltb_ge. lia. }
  rewrite Em.
  assert (Hop' : wf128 (if v <? 0 then i128_neg op else op) /\ uval (if v <? 0 then i128_neg op else op) = Z.abs v).
  { destruct sg; subst v.
    - pose proof (abs_spec op Hop) as A. rewrite topbit_spec in A by assumption. exact A.
    - replace (uval op <? 0) with false by lia. split; [exact Hop|lia]. }
  destruct Hop' as [W1 U1]. pose proof (uval_bounds _ W1) as B1.
  destruct (to_digits_spec 130 _ base W1 Hb) as (ds & E & L & F & NE & LN).
  { apply Z.lt_le_trans with (2 ^ 128); [lia|].
    apply Z.le_trans with (base ^ 128); [apply pow_mono_base; lia|]. apply Z.pow_le_mono_r; lia. }
  { lia. }
  rewrite E. exists (map digit_char (rev ds)). split; [|split].
  - reflexivity.
  - rewrite read_digits_rev by assumption. rewrite L, U1. reflexivity.
  - apply (canonical_rev base); assumption.
Qed.

Lemma int_to_str_spec a base (pf : bool) : wf128 (ival a) -> 2 <= base <= 16 ->
  exists digits, int_to_str a base pf =
    Some ((if value a <? 0 then [45] else @nil Z) ++ (if pf then prefix_of base else []) ++ digits)
    /\ read_digits base 0 digits = Some (Z.abs (value a)) /\ canonical_digits digits.
Proof. intros Ha Hb. exact (i128_to_string_spec (ival a) base (ksigned (itype a)) pf Ha Hb). Qed.

Lemma from_str_gen s : forall acc v a, wf128 a -> uval a = acc mod 2 ^ 128 -> 0 <= acc ->
  read_digits 10 acc s = Some v ->
  let r := fold_left (fun x c => i128_add64 (i128_mult64 x 10) (w64 (c - 48))) s a in
  wf128 r /\ uval r = v mod 2 ^ 128.
Proof.
  induction s as [|c s IH]; intros acc v a Ha Ea H0; cbn [read_digits fold_left].
  - intros [= <-]. split; assumption.
  - unfold char_digit. destruct ((48 <=? c) && (c <=? 57)) eqn:Ec.
    + destruct (Z.ltb_spec (c - 48) 10); [|discriminate]. intros HR.
      destruct (mult64_spec a 10 Ha ltac:(unf; lia)) as [M1 M2].
      assert (Hw : word (w64 (c - 48))) by apply w64_word.
      assert (Ew : w64 (c - 48) = c - 48) by (apply Z.mod_small; change W with (2 ^ 64); consts; lia).
      destruct (add64_spec _ (w64 (c - 48)) M1 Hw) as [A1 A2].
      apply (IH (acc * 10 + (c - 48)) v); [exact A1| |lia|exact HR].
      rewrite A2, M2, Ew, Ea. rewrite Z.mul_mod_idemp_l, Z.add_mod_idemp_l by discriminate. reflexivity.
    + destruct ((65 <=? c) && (c <=? 70)) eqn:Ec2; [|discriminate].
      destruct (Z.ltb_spec (c - 55) 10); [lia|discriminate].
Qed.

Lemma from_str_spec s v : read_digits 10 0 s = Some v ->
  wf128 (i128_from_str s) /\ uval (i128_from_str s) = v mod 2 ^ 128.
Proof. intros H. apply (from_str_gen s 0 v zero128); [exact wf_zero|reflexivity|lia|exact H]. Qed.

Lemma print_read a : wf128 (ival a) -> 0 <= value a ->
  exists s, int_to_str a 10 false = Some s /\ wf128 (i128_from_str s) /\ uval (i128_from_str s) = value a.
Proof.
  intros Ha Hp. destruct (int_to_str_spec a 10 false Ha ltac:(lia)) as (s & E & R & _).
  replace (value a <? 0) with false in E by lia. exists s. split; [exact E|].
  destruct (from_str_spec _ _ R) as [F1 F2]. split; [exact F1|]. rewrite F2, Z.abs_eq by exact Hp.
  apply Z.mod_small. pose proof (uval_bounds _ Ha). pose proof (sval_bounds _ Ha).
  unfold value in *. destruct (ksigned (itype a)); consts; lia.
Qed.

Lemma arith_spec op a b : valid a -> valid b -> itype a = itype b ->
  valid (fold_arith op a b) /\ itype (fold_arith op a b) = itype a /\
  value (fold_arith op a b) = wrap (itype a) (zarith op (value a) (value b)).
Proof.
  intros Ha Hb E. destruct op; cbn [fold_arith zarith].
  - apply int_add_spec; assumption.
  - apply int_sub_spec; assumption.
  - apply int_mul_spec; assumption.
  - destruct (int_bitop_spec _ _ i128_and a b land_ok and_spec Ha Hb E) as (V & T & U).
    split; [exact V|split; [exact T|]]. rewrite wrap_small; [exact U|]. rewrite <- U. apply V.
  - destruct (int_bitop_spec _ _ i128_or a b lor_ok or_spec Ha Hb E) as (V & T & U).
    split; [exact V|split; [exact T|]]. rewrite wrap_small; [exact U|]. rewrite <- U. apply V.
  - destruct (int_bitop_spec _ _ i128_xor a b lxor_ok xor_spec Ha Hb E) as (V & T & U).
    split; [exact V|split; [exact T|]]. rewrite wrap_small; [exact U|]. rewrite <- U. apply V.
Qed.

Lemma rem_partial a b : valid a -> valid b -> itype a = itype b -> 0 < value b ->
  valid (int_rem a b) /\ itype (int_rem a b) = itype a /\ value (int_rem a b) = Z.rem (value a) (value b).
Proof.
  intros Ha Hb E Hp. destruct (int_rem_spec a b Ha Hb E ltac:(lia)) as (V & T & U).
  split; [exact V|split; [exact T|]]. rewrite U. destruct (Z.ltb_spec (value b) 0); [lia|reflexivity].
Qed.

Lemma wrap_spec_unique k z v : in_kind k v -> (v - z) mod 2 ^ kbits k = 0 -> wrap k z = v.
Proof.
  intros Hv Hc. rewrite <- (wrap_small k v Hv). unfold wrap.
  assert (P : 0 < 2 ^ kbits k) by (apply pow_pos; destruct k; cbn; lia).
  assert (z mod 2 ^ kbits k = v mod 2 ^ kbits k) as E.
  { apply Z.mod_divide in Hc; [|lia]. destruct Hc as [q Hq].
    replace v with (z + q * 2 ^ kbits k) by lia. symmetry. apply Z_mod_plus_full. }
  unfold swrap, uwrap. rewrite E. reflexivity.
Qed.

Lemma wrap_congruent k z : (wrap k z - z) mod 2 ^ kbits k = 0.
Proof.
  assert (P : 0 < 2 ^ kbits k) by (apply pow_pos; destruct k; cbn; lia).
  pose proof (Z.div_mod z (2 ^ kbits k) ltac:(lia)) as D.
  unfold wrap, swrap, uwrap. apply Z.mod_divide; [lia|].
  destruct (ksigned k); [destruct (z mod 2 ^ kbits k <? 2 ^ (kbits k - 1))|].
  - exists (- (z / 2 ^ kbits k)). lia.
  - exists (- (z / 2 ^ kbits k) - 1). lia.
  - exists (- (z / 2 ^ kbits k)). lia.
Qed.
