(** Negation, subtraction, comparison, construction and bitwise operations. *)
From Coq Require Import ZArith List Bool Lia.
From Verif Require Import BigModel BigSpec BigProofs.
Import ListNotations.
Open Scope Z_scope.

Lemma denotes_zeros : denotes ZERO 0.
Proof.
  pose proof Half_pos. constructor; cbn [data len ZERO].
  - apply zeros_len.
  - apply zeros_words.
  - unfold in_range. lia.
  - rewrite uval_zeros, Z.mod_0_l; [reflexivity|]. pose proof Full_pos. lia.
  - lia.
  - intros i _. unfold zeros. apply nth_repeat.
  - auto.
Qed.
Lemma is_zero_spec b z : denotes b z -> is_zero b = (z =? 0).
Proof.
  intros D. destruct (Z.eqb_spec z 0) as [->|N].
  - rewrite (denotes_inj b ZERO 0 D denotes_zeros). reflexivity.
  - unfold is_zero. destruct (Nat.eqb_spec (len b) 1) as [L|L]; [|reflexivity]. destruct (Z.eqb_spec (nth 0 (data b) 0) 0) as [E|E]; [|reflexivity].
    destruct N. destruct D as [S F R V _ A _]. assert (U : uval (data b) = 0). { apply uval_all0. intros [|i]; [exact E|]. apply A. lia. }
    rewrite U in V. rewrite mod_Full_range in V by auto. unfold in_range in R. pose proof Full_Half. pose proof Half_pos. destruct (z <? 0); lia.
Qed.
Lemma zero_cases z : in_range z -> z mod Full = 0 -> z = 0.
Proof. intros R E. rewrite mod_Full_range in E by auto. unfold in_range in R. pose proof Full_Half. pose proof Half_pos. destruct (Z.ltb_spec z 0); lia. Qed.

Lemma compl_words l : Forall word l -> Forall word (map (fun x => B - 1 - x) l).
Proof. induction 1 as [|x l X F IH]; constructor; auto. apply word_lim in X. apply word_mk. unfold B. lia. Qed.
Lemma compl_val l : uval (map (fun x => B - 1 - x) l) = pw (length l) - 1 - uval l.
Proof. induction l as [|x l IH]; cbn [map length]; [rewrite pw_0; reflexivity|]. rewrite !uval_cons, IH, pw_S. unfold B. lia. Qed.
Lemma inc_loop_spec a : forall c, Forall word a -> 0 <= c <= 1 -> length (inc_loop a c) = length a /\ Forall word (inc_loop a c) /\
  uval (inc_loop a c) = (uval a + c) mod pw (length a).
Proof.
  induction a as [|x a IH]; intros c F Hc.
  - cbn [inc_loop length]. rewrite pw_0, Z.mod_1_r. repeat split; auto.
  - inversion F as [|? ? X F']; subst. apply word_lim in X. pose proof (uval_bound (x :: a) F) as U. cbn [inc_loop].
    destruct (Z.eqb_spec c 0) as [->|N].
    + repeat split; auto. rewrite Z.add_0_r, Z.mod_small by lia. reflexivity.
    + assert (c = 1) as -> by lia. rewrite (u64_small (x + 1)) by lia. unfold B.
      assert (D : (x + 1) = BB * ((x + 1) / BB) + (x + 1) mod BB) by (apply Z.div_mod; lia). pose proof (Z.mod_pos_bound (x + 1) BB ltac:(lia)) as M.
      destruct (IH ((x + 1) / BB) F' ltac:(lia)) as (I1 & I2 & I3). cbn [length]. split; [lia|]. split; [constructor; auto; apply word_mk; lia|].
      rewrite !uval_cons, I3. pose proof (uval_bound a F') as Ua. pose proof (pw_pos (length a)) as P. rewrite pw_S.
      set (q := (x + 1) / BB) in *. set (m := (x + 1) mod BB) in *. replace (x + BB * uval a + 1) with (m + BB * (uval a + q)) by lia.
      destruct (Z.eq_dec (uval a + q) (pw (length a))) as [E|E].
      * rewrite E, Z_mod_same_full. replace (m + BB * pw (length a)) with (m + 1 * (BB * pw (length a))) by lia. rewrite Z_mod_plus by lia. rewrite Z.mod_small by lia. lia.
      * rewrite (Z.mod_small (uval a + q)) by lia. rewrite Z.mod_small; [lia|]. split; [lia|]. assert (uval a + q + 1 <= pw (length a)) by lia. nia.
Qed.
Lemma negate_spec b z : denotes b z -> (z <> - Half -> gives (negate b) (- z)) /\ (z = - Half -> negate b = Stop Assert).
Proof.
  intros D. unfold negate. rewrite (is_zero_spec b z D). pose proof Half_pos as HP. pose proof Full_Half as FH.
  destruct (Z.eqb_spec z 0) as [->|N].
  { split; [|lia]. intros _. exists b. split; [reflexivity|exact D]. }
  set (d := inc_loop _ 1). destruct (inc_loop_spec (map (fun x => B - 1 - x) (data b)) 1) as (I1 & I2 & I3); [apply compl_words, D|lia|]. fold d in I1, I2, I3.
  rewrite map_length, (d_size _ _ D) in I1, I3. rewrite <- Full_pw, compl_val, (d_size _ _ D), <- Full_pw, (d_value _ _ D) in I3.
  pose proof (d_range _ _ D) as R. assert (V : uval d = (- z) mod Full).
  { rewrite I3. replace (Full - 1 - z mod Full + 1) with (Full - z mod Full) by lia. replace (Full - z mod Full) with (- (z mod Full) + 1 * Full) by lia. rewrite Z_mod_plus by lia.
    rewrite (Z.mod_eq z Full) by lia. replace (- (z - Full * (z / Full))) with (- z + z / Full * Full) by lia. apply Z_mod_plus. lia. }
  assert (ND : neg_words d = (Half <=? uval d)) by (apply neg_words_val; auto).
  rewrite (neg_iff _ _ D), ND, V. split; intros C.
  - assert (R' : in_range (- z)) by (unfold in_range in *; lia). rewrite mod_Full_range by exact R'.
    unfold in_range in R'. assert (X : Bool.eqb (Half <=? (if - z <? 0 then - z + Full else - z)) (z <? 0) = false).
    { destruct (Z.ltb_spec (- z) 0), (Z.ltb_spec z 0); try lia. }
    rewrite X. eexists. split; [reflexivity|]. apply denotes_reduce; auto; try (exact I1); try reflexivity. intros i Hi. apply nth_overflow. rewrite I1. exact Hi.
  - subst z. replace (- - Half) with Half by lia. rewrite Z.mod_small by lia. destruct (Z.leb_spec Half Half); [|lia]. destruct (Z.ltb_spec (- Half) 0); [reflexivity|lia].
Qed.

(** Subtraction. *)
Lemma sub_loop_spec n : forall a b c r c', Forall word a -> Forall word b -> (n <= length a)%nat -> (n <= length b)%nat -> 0 <= c <= 1 -> sub_loop n a b c = (r, c') ->
  length r = length a /\ Forall word r /\ 0 <= c' <= 1 /\ skipn n r = skipn n a /\ uval (firstn n r) - c' * pw n = uval (firstn n a) - uval (firstn n b) - c.
Proof.
  induction n as [|n IH]; intros a b c r c' Fa Fb La Lb Hc E.
  - injection E as <- <-. rewrite pw_0. cbn [firstn]. change (uval []) with 0. repeat split; auto; lia.
  - destruct a as [|x a], b as [|y b]; cbn [length] in *; try lia. cbn [sub_loop] in E. unfold B in E.
    inversion Fa as [|? ? X Fa']; inversion Fb as [|? ? Y Fb']; subst. apply word_lim in X, Y.
    set (c0 := if x - y - c <? 0 then 1 else 0) in *. assert (C0 : 0 <= c0 <= 1 /\ (x - y - c) mod BB = x - y - c + BB * c0).
    { unfold c0. destruct (Z.ltb_spec (x - y - c) 0).
      - split; [lia|]. rewrite <- (Z_mod_plus _ 1) by lia. rewrite Z.mod_small by lia. lia.
      - split; [lia|]. rewrite Z.mod_small by lia. lia. }
    pose proof (Z.mod_pos_bound (x - y - c) BB ltac:(lia)) as MB. clearbody c0.
    destruct (sub_loop n a b c0) as [r1 c1] eqn:E1. injection E as <- <-.
    destruct (IH a b c0 r1 c1) as (I1 & I2 & I3 & I4 & I5); auto; try lia.
    cbn [length firstn skipn]. rewrite !uval_cons, pw_S. split; [lia|]. split; [constructor; [apply word_mk; lia|auto]|]. split; [lia|]. split; [auto|]. lia.
Qed.
Lemma ones_val n : uval (repeat 4294967295 n) = pw n - 1.
Proof. induction n; cbn [repeat]; [rewrite pw_0; reflexivity|]. rewrite uval_cons, IHn, pw_S. lia. Qed.
Lemma sub_core a b x y d c n : denotes a x -> denotes b y -> n = Nat.max (len a) (len b) -> sub_loop n (data a) (data b) 0 = (d, c) ->
  denotes (if negb (c =? 0) then reduce_len (firstn n d ++ repeat 4294967295 (MAX_LEN - n)) MAX_LEN else reduce_len d n) (sgn_of ((x - y) mod Full)).
Proof.
  intros Da Db En E. destruct (denotes_max a b x y n Da Db En) as (Hn & Za & Zb).
  destruct Da as [Sa Fa Ra Va La _ _]. destruct Db as [Sb Fb Rb Vb Lb _ _].
  destruct (sub_loop_spec n (data a) (data b) 0 d c) as (I1 & I2 & I3 & I4 & I5); auto; try lia.
  pose proof (uval_low n (data a) Za) as Ua. pose proof (uval_low n (data b) Zb) as Ub.
  assert (Zd : forall i, (n <= i)%nat -> nth i d 0 = 0) by (intros i Hi; rewrite (nth_above_skip d (data a) n I4 i Hi); apply Za, Hi).
  pose proof (uval_low n d Zd) as Ud.
  pose proof (Z.mod_pos_bound (x - y) Full Full_pos) as MB. destruct (sgn_of_range _ MB) as [R1 M1]. pose proof Full_pos as FP.
  assert (Ms : (uval (data a) - uval (data b)) mod Full = (x - y) mod Full) by (rewrite Va, Vb; symmetry; apply Zminus_mod).
  pose proof (uval_bound d I2) as Bd. rewrite I1, Sa, <- Full_pw in Bd.
  assert (L1 : length (firstn n d) = n) by (rewrite firstn_length; lia).
  destruct (Z.eqb_spec c 0) as [C0|C0]; cbn [negb].
  - apply denotes_reduce; auto; try (unfold size; congruence); try lia. rewrite M1, <- Ms. subst c. rewrite Z.mod_small by lia. lia.
  - assert (c = 1) by lia. subst c. change MAX_LEN with 256%nat. assert (LL : length (firstn n d ++ repeat 4294967295 (256 - n)) = 256%nat).
    { rewrite app_length, L1, repeat_length. lia. }
    assert (FF : Forall word (firstn n d ++ repeat 4294967295 (256 - n))).
    { apply Forall_app. split; [apply firstn_words; auto|]. apply Forall_forall. intros w Hw. apply repeat_spec in Hw. subst w. apply word_mk. lia. }
    apply denotes_reduce; auto; try exact LL.
    + rewrite M1, <- Ms. pose proof (uval_bound _ FF) as UB. rewrite LL, <- Full_pw in UB. rewrite <- (Z.mod_small _ Full UB).
      rewrite uval_app, L1, ones_val. assert (EP : pw n * pw (256 - n) = Full) by (rewrite <- pw_add, Full_pw; f_equal; lia).
      replace (uval (firstn n d) + pw n * (pw (256 - n) - 1)) with (uval (firstn n d) - 1 * pw n + 1 * Full) by (rewrite <- EP; lia). rewrite Z_mod_plus by lia.
      rewrite I5. f_equal. lia.
    + intros i Hi. apply nth_overflow. rewrite LL. exact Hi.
Qed.
Lemma sub_spec a b x y : denotes a x -> denotes b y -> (in_range (x - y) -> gives (sub a b) (x - y)) /\ (~ in_range (x - y) -> sub a b = Stop Assert).
Proof.
  intros Da Db. unfold sub. destruct (sub_loop _ _ _ 0) as [d c] eqn:E.
  pose proof (sub_core a b x y d c _ Da Db eq_refl E) as D. cbv zeta. set (r := if negb _ then _ else _) in *. clearbody r. clear E.
  rewrite (neg_iff _ _ Da), (neg_iff _ _ Db), (neg_iff _ _ D). destruct (d_range _ _ Da) as [A1 A2]. destruct (d_range _ _ Db) as [B1 B2].
  pose proof Full_Half. pose proof Half_pos. rewrite sgn_wrap in * by lia. unfold in_range. split; intros H1.
  - exists r. destruct (Z.ltb_spec (x - y) (- Half)); [lia|]. destruct (Z.ltb_spec (x - y) Half); [|lia]. split; [|exact D].
    destruct (Z.ltb_spec x 0), (Z.ltb_spec y 0), (Z.ltb_spec (x - y) 0); try reflexivity; lia.
  - destruct (Z.ltb_spec (x - y) (- Half)); [|destruct (Z.ltb_spec (x - y) Half); [lia|]].
    + destruct (Z.ltb_spec x 0), (Z.ltb_spec y 0), (Z.ltb_spec (x - y + Full) 0); try reflexivity; lia.
    + destruct (Z.ltb_spec x 0), (Z.ltb_spec y 0), (Z.ltb_spec (x - y - Full) 0); try reflexivity; lia.
Qed.

(** Comparison. *)
Lemma firstn_snoc n (l : list Z) : (n < length l)%nat -> firstn (S n) l = firstn n l ++ [nth n l 0].
Proof. revert l. induction n as [|n IH]; intros [|x l] L; cbn [length] in L; try lia; [reflexivity|]. change (firstn (S (S n)) (x :: l)) with (x :: firstn (S n) l). rewrite IH by lia. reflexivity. Qed.
Lemma differ_spec n : forall a b, Forall word a -> Forall word b -> (n <= length a)%nat -> (n <= length b)%nat ->
  match differ n a b with
  | Some (x, y) => x <> y /\ ((x < y) <-> uval (firstn n a) < uval (firstn n b)) /\ ((y < x) <-> uval (firstn n b) < uval (firstn n a))
  | None => uval (firstn n a) = uval (firstn n b)
  end.
Proof.
  induction n as [|n IH]; intros a b Fa Fb La Lb; [reflexivity|]. cbn [differ].
  rewrite !firstn_snoc by lia. rewrite !uval_app, !firstn_length, !Nat.min_l, !uval_cons by lia. change (uval []) with 0.
  pose proof (nth_word a n Fa) as Wa. pose proof (nth_word b n Fb) as Wb.
  pose proof (uval_bound _ (firstn_words n a Fa)) as Ua. pose proof (uval_bound _ (firstn_words n b Fb)) as Ub. rewrite firstn_length, Nat.min_l in Ua, Ub by lia.
  destruct (Z.eqb_spec (nth n a 0) (nth n b 0)) as [E|E].
  - rewrite E. specialize (IH a b Fa Fb ltac:(lia) ltac:(lia)). destruct (differ n a b) as [[x y]|]; [|lia]. destruct IH as (I1 & I2 & I3). split; [auto|]. split; lia.
  - set (p := pw n) in *. set (xa := nth n a 0) in *. set (xb := nth n b 0) in *. clearbody p xa xb. split; [exact E|]. split; split; intros H; nia.
Qed.
Lemma order_spec a b x y : denotes a x -> denotes b y -> less_than a b = (x <? y) /\ greater_than a b = (y <? x).
Proof.
  intros Da Db. unfold less_than, greater_than. rewrite !(neg_iff _ _ Da), !(neg_iff _ _ Db).
  destruct (denotes_max a b x y _ Da Db eq_refl) as (Hn & Za & Zb). set (n := Nat.max (len a) (len b)) in *. clearbody n.
  pose proof (differ_spec n (data a) (data b) (d_words _ _ Da) (d_words _ _ Db)) as D. rewrite (d_size _ _ Da), (d_size _ _ Db) in D. specialize (D ltac:(lia) ltac:(lia)).
  rewrite <- (uval_low n (data a) Za), <- (uval_low n (data b) Zb), (d_value _ _ Da), (d_value _ _ Db) in D.
  rewrite !mod_Full_range in D by (first [exact (d_range _ _ Da)|exact (d_range _ _ Db)]).
  destruct (Z.ltb_spec x 0), (Z.ltb_spec y 0); cbn [negb andb]; [|split; [destruct (Z.ltb_spec x y)|destruct (Z.ltb_spec y x)]; try reflexivity; lia..|].
  - destruct (differ _ _ _) as [[u v]|]; [|split; [destruct (Z.ltb_spec x y)|destruct (Z.ltb_spec y x)]; try reflexivity; lia].
    destruct D as (D1 & D2 & D3). split; [destruct (Z.ltb_spec x y), (Z.ltb_spec u v)|destruct (Z.ltb_spec y x), (Z.ltb_spec v u)]; try reflexivity; lia.
  - destruct (differ _ _ _) as [[u v]|]; [|split; [destruct (Z.ltb_spec x y)|destruct (Z.ltb_spec y x)]; try reflexivity; lia].
    destruct D as (D1 & D2 & D3). split; [destruct (Z.ltb_spec x y), (Z.ltb_spec u v)|destruct (Z.ltb_spec y x), (Z.ltb_spec v u)]; try reflexivity; lia.
Qed.
Lemma words_eqb_spec a : forall b, words_eqb a b = true <-> a = b.
Proof.
  induction a as [|x a IH]; intros [|y b]; cbn; split; intros H; try discriminate; auto.
  - apply andb_true_iff in H. destruct H as [H1 H2]. apply Z.eqb_eq in H1. apply IH in H2. congruence.
  - injection H as -> ->. rewrite Z.eqb_refl. apply IH. reflexivity.
Qed.
Lemma equals_spec a b x y : denotes a x -> denotes b y -> equals a b = (x =? y).
Proof.
  intros Da Db. unfold equals. destruct (Z.eqb_spec x y) as [->|N].
  - rewrite (denotes_inj a b y Da Db), Nat.eqb_refl. cbn [negb]. apply words_eqb_spec. reflexivity.
  - destruct (Nat.eqb_spec (len a) (len b)) as [L|L]; [|reflexivity]. cbn [negb]. destruct (words_eqb _ _) eqn:E; [|reflexivity]. destruct N.
    apply words_eqb_spec in E. assert (U : uval (data a) = uval (data b)).
    { rewrite (uval_low (len a) (data a)) by apply Da. rewrite (uval_low (len a) (data b)) by (rewrite L; apply Db). rewrite E. reflexivity. }
    rewrite (d_value _ _ Da), (d_value _ _ Db) in U. rewrite <- (sgn_of_mod x), <- (sgn_of_mod y), U; [reflexivity|apply Db|apply Da].
Qed.
Lemma greater_or_equal_spec a b x y : denotes a x -> denotes b y -> greater_or_equal a b = (y <=? x).
Proof.
  intros Da Db. unfold greater_or_equal. rewrite (proj2 (order_spec a b x y Da Db)), (equals_spec a b x y Da Db).
  destruct (Z.ltb_spec y x), (Z.eqb_spec x y), (Z.leb_spec y x); try reflexivity; lia.
Qed.
