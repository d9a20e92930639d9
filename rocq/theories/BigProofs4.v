(** Multiplication. *)
From Coq Require Import ZArith List Bool Lia.
From Verif Require Import BigModel BigSpec BigProofs BigProofs2 BigProofs3.
Import ListNotations.
Open Scope Z_scope.

Definition tail0 (k : nat) (r : list Z) : Prop := forall i, (k <= i)%nat -> nth i r 0 = 0.
Definition topped (ys : list Z) : Prop := ys = [] \/ nth (length ys - 1) ys 0 <> 0.
Lemma topped_tail y ys : topped (y :: ys) -> topped ys.
Proof. intros [H|H]; [discriminate|]. destruct ys as [|z ys]; [left; reflexivity|]. right. cbn [length] in *. replace (S (S (length ys)) - 1)%nat with (S (length ys)) in H by lia. cbn [nth] in H. replace (S (length ys) - 1)%nat with (length ys) by lia. exact H. Qed.
Lemma topped_pos ys : ys <> [] -> topped ys -> Forall word ys -> 1 <= uval ys.
Proof.
  intros N [T|T] F; [contradiction|]. pose proof (uval_nth_le ys (length ys - 1) F) as U. pose proof (nth_word ys (length ys - 1) F) as W. pose proof (pw_pos (length ys - 1)). nia.
Qed.
Lemma row_step x y z c : 0 <= x < BB -> 0 <= y < BB -> 0 <= z < BB -> 0 <= c < BB -> exists q m, u64 (x * y + z + c) / B = q /\ u64 (x * y + z + c) mod B = m /\ x * y + z + c = BB * q + m /\ 0 <= q < BB /\ 0 <= m < BB.
Proof.
  intros. assert (0 <= x * y <= 18446744065119617025) by nia. rewrite u64_small by lia. unfold B. eexists. eexists. split; [reflexivity|]. split; [reflexivity|].
  pose proof (Z.div_mod (x * y + z + c) BB ltac:(lia)). pose proof (Z.mod_pos_bound (x * y + z + c) BB ltac:(lia)). lia.
Qed.
Lemma row_spec x ys : forall r c r', 0 <= x < BB -> Forall word ys -> Forall word r -> 0 <= c < BB -> tail0 (length ys) r -> row x ys r c = Some r' ->
  length r' = length r /\ Forall word r' /\ uval r' = uval r + x * uval ys + c /\ tail0 (S (length ys)) r'.
Proof.
  induction ys as [|y ys IH]; intros r c r' X Fy Fr C T E; cbn [row length] in *.
  - change (uval []) with 0. destruct (Z.eqb_spec c 0) as [->|N].
    + injection E as <-. repeat split; auto; [lia|]. intros i Hi. apply T. lia.
    + destruct r as [|z t]; [discriminate|]. injection E as <-. rewrite u32_small by lia. inversion Fr; subst. split; [reflexivity|]. split; [constructor; auto; apply word_mk; lia|].
      pose proof (T O ltac:(lia)) as T0. cbn [nth] in T0. rewrite !uval_cons. split; [lia|]. intros i Hi. destruct i; [lia|]. apply (T (S i)). lia.
  - destruct r as [|z r]; [discriminate|]. inversion Fy as [|? ? Y Fy']; inversion Fr as [|? ? Wz Fr']; subst. apply word_lim in Y, Wz.
    destruct (row_step x y z c X Y Wz C) as (q & m & E1 & E2 & E3 & Q & M). rewrite E1, E2 in E. destruct (row x ys r q) as [t|] eqn:Er; [|discriminate]. injection E as <-.
    destruct (IH r q t) as (I1 & I2 & I3 & I4); auto; [intros i Hi; apply (T (S i)); lia|]. cbn [length]. split; [lia|]. split; [constructor; auto; apply word_mk; lia|].
    rewrite !uval_cons, I3. split; [nia|]. intros i Hi. destruct i; [lia|]. apply I4. lia.
Qed.
Lemma row_none x ys : forall r c, 0 < x < BB -> Forall word ys -> Forall word r -> 0 <= c < BB -> topped ys -> row x ys r c = None ->
  pw (length r) <= uval r + x * uval ys + c.
Proof.
  induction ys as [|y ys IH]; intros r c X Fy Fr C T E; cbn [row] in *.
  - destruct (Z.eqb_spec c 0); [discriminate|]. destruct r; [|discriminate]. cbn [length]. rewrite pw_0. cbn. lia.
  - destruct r as [|z r].
    + pose proof (topped_pos (y :: ys) ltac:(discriminate) T Fy). cbn [length]. rewrite pw_0. change (uval []) with 0. nia.
    + inversion Fy as [|? ? Y Fy']; inversion Fr as [|? ? Wz Fr']; subst. apply word_lim in Y, Wz.
      destruct (row_step x y z c) as (q & m & E1 & E2 & E3 & Q & M); try lia. rewrite E1, E2 in E. destruct (row x ys r q) as [t|] eqn:Er; [discriminate|].
      specialize (IH r q X Fy' Fr' Q (topped_tail _ _ T) Er). cbn [length]. rewrite pw_S, !uval_cons. nia.
Qed.
Lemma row_some x ys : forall r c, (S (length ys) <= length r)%nat -> row x ys r c <> None.
Proof.
  induction ys as [|y ys IH]; intros r c L; cbn [row length] in *.
  - destruct (c =? 0); [discriminate|]. destruct r; [cbn in L; lia|discriminate].
  - destruct r as [|z r]; [cbn in L; lia|]. cbn [length] in L. cbv zeta. destruct (row x ys r _) eqn:E; [discriminate|]. exfalso. revert E. apply IH. lia.
Qed.
Lemma mul_loop_spec xs : forall ys r r', Forall word xs -> Forall word ys -> Forall word r -> (length xs <= length r)%nat -> tail0 (length ys) r -> mul_loop xs ys r = Some r' ->
  length r' = length r /\ Forall word r' /\ uval r' = uval r + uval xs * uval ys /\ tail0 (length xs + length ys) r'.
Proof.
  induction xs as [|x xs IH]; intros ys r r' Fx Fy Fr L T E; cbn [mul_loop length] in *.
  - injection E as <-. change (uval []) with 0. repeat split; auto; lia.
  - inversion Fx as [|? ? X Fx']; subst. apply word_lim in X.
    assert (Step : exists r1, (if x =? 0 then Some r else row x ys r 0) = Some r1 /\ length r1 = length r /\ Forall word r1 /\ uval r1 = uval r + x * uval ys /\ tail0 (S (length ys)) r1).
    { destruct (Z.eqb_spec x 0) as [->|N].
      - exists r. repeat split; auto; [lia|]. intros i Hi. apply T. lia.
      - destruct (row x ys r 0) as [r1|] eqn:Er; [|discriminate]. exists r1. split; [reflexivity|]. destruct (row_spec x ys r 0 r1) as (I1 & I2 & I3 & I4); auto; [lia|]. repeat split; auto; lia. }
    destruct Step as (r1 & S1 & S2 & S3 & S4 & S5). rewrite S1 in E. destruct r1 as [|z t]; [cbn in S2; lia|].
    destruct (mul_loop xs ys t) as [t'|] eqn:Em; [|discriminate]. injection E as <-. cbn [length] in S2. inversion S3 as [|? ? Wz Ft]; subst. apply word_lim in Wz.
    destruct (IH ys t t') as (I1 & I2 & I3 & I4); auto; [lia|intros i Hi; apply (S5 (S i)); lia|]. cbn [length]. split; [lia|]. split; [constructor; auto|].
    rewrite uval_cons in *. rewrite I3, !uval_cons. split; [nia|]. intros i Hi. destruct i; [lia|]. apply I4. lia.
Qed.
Lemma mul_loop_none xs : forall ys r, Forall word xs -> Forall word ys -> Forall word r -> topped ys -> tail0 (length ys) r -> (length xs <= length r)%nat -> mul_loop xs ys r = None ->
  pw (length r) <= uval r + uval xs * uval ys.
Proof.
  induction xs as [|x xs IH]; intros ys r Fx Fy Fr Ty T L E; cbn [mul_loop length] in *; [discriminate|].
  inversion Fx as [|? ? X Fx']; subst. apply word_lim in X. pose proof (uval_bound xs Fx') as Ux. pose proof (uval_bound ys Fy) as Uy. rewrite uval_cons.
  destruct (Z.eqb_spec x 0) as [->|N].
  - destruct r as [|z t]; [discriminate|]. destruct (mul_loop xs ys t) eqn:Em; [discriminate|]. inversion Fr as [|? ? Wz Ft]; subst. apply word_lim in Wz. cbn [length] in *.
    assert (pw (length t) <= uval t + uval xs * uval ys) by (apply IH; auto; [intros i Hi; apply (T (S i)); lia|lia]). rewrite pw_S, uval_cons. nia.
  - destruct (row x ys r 0) as [r1|] eqn:Er.
    + destruct (row_spec x ys r 0 r1) as (I1 & I2 & I3 & I4); auto; [lia|]. destruct r1 as [|z t]; [discriminate|]. destruct (mul_loop xs ys t) eqn:Em; [discriminate|].
      inversion I2 as [|? ? Wz Ft]; subst. apply word_lim in Wz. cbn [length] in I1.
      assert (pw (length t) <= uval t + uval xs * uval ys) by (apply IH; auto; [intros i Hi; apply (I4 (S i)); lia|lia]). rewrite <- I1, pw_S. rewrite uval_cons in I3. nia.
    + pose proof (row_none x ys r 0 ltac:(lia) Fy Fr ltac:(lia) Ty Er). nia.
Qed.
Lemma mul_loop_some xs : forall ys r, (length xs + length ys <= length r)%nat -> Forall word xs -> Forall word ys -> Forall word r -> tail0 (length ys) r -> mul_loop xs ys r <> None.
Proof.
  induction xs as [|x xs IH]; intros ys r L Fx Fy Fr T E; cbn [mul_loop length] in *; [discriminate|]. inversion Fx as [|? ? X Fx']; subst. apply word_lim in X.
  destruct (Z.eqb_spec x 0) as [->|N].
  - destruct r as [|z t]; [discriminate|]. destruct (mul_loop xs ys t) eqn:Em; [discriminate|]. inversion Fr; subst. cbn [length] in L. revert Em. apply IH; auto; [lia|intros i Hi; apply (T (S i)); lia].
  - destruct (row x ys r 0) as [r1|] eqn:Er; [|exfalso; revert Er; apply row_some; lia].
    destruct (row_spec x ys r 0 r1) as (I1 & I2 & I3 & I4); auto; [lia|]. destruct r1 as [|z t]; [discriminate|]. destruct (mul_loop xs ys t) eqn:Em; [discriminate|].
    inversion I2; subst. cbn [length] in I1. revert Em. apply IH; auto; [lia|intros i Hi; apply (I4 (S i)); lia].
Qed.

(** A magnitude whose [len] may be larger than needed. *)
Record loose (b : big) (x : Z) : Prop := Loose {
  l_size : size (data b); l_words : Forall word (data b); l_value : uval (data b) = x; l_len : (1 <= len b <= 256)%nat; l_above : tail0 (len b) (data b) }.
Lemma denotes_loose b z : denotes b z -> 0 <= z -> loose b z.
Proof.
  intros [S F R V L A _] P. constructor; auto. rewrite V. apply Z.mod_small. unfold in_range in R. pose proof Full_Half. pose proof Half_pos. lia.
Qed.
Lemma loose_low b x : loose b x -> uval (firstn (len b) (data b)) = x /\ length (firstn (len b) (data b)) = len b /\ Forall word (firstn (len b) (data b)).
Proof.
  intros [S F V L A]. split; [rewrite <- uval_low; auto|]. split; [rewrite firstn_length, S; lia|apply firstn_words, F].
Qed.
Definition mag_mult (a b : big) : res big :=
  match mul_loop (firstn (len a) (data a)) (firstn (len b) (data b)) (zeros MAX_LEN) with
  | None => Stop Index
  | Some d => let r := reduce_len d (Nat.min (len a + len b) MAX_LEN) in if is_negative r then Stop Assert else Ok r
  end.
Lemma mag_some a b x y d : loose a x -> loose b y -> mul_loop (firstn (len a) (data a)) (firstn (len b) (data b)) (zeros MAX_LEN) = Some d ->
  size d /\ Forall word d /\ uval d = x * y /\ 0 <= x * y < Full /\ is_negative (reduce_len d (Nat.min (len a + len b) MAX_LEN)) = (Half <=? x * y) /\
  (x * y < Half -> denotes (reduce_len d (Nat.min (len a + len b) MAX_LEN)) (x * y)).
Proof.
  intros La Lb E. destruct (loose_low a x La) as (A1 & A2 & A3). destruct (loose_low b y Lb) as (B1 & B2 & B3).
  pose proof (l_len _ _ La) as La'. pose proof (l_len _ _ Lb) as Lb'. change MAX_LEN with 256%nat in *.
  destruct (mul_loop_spec _ _ _ d A3 B3 (zeros_words 256)) as (I1 & I2 & I3 & I4); [| |exact E|].
  { rewrite A2, zeros_len. lia. } { intros i _. apply nth_repeat. }
  rewrite zeros_len in I1. rewrite uval_zeros, A1, B1 in I3. rewrite A2, B2 in I4. split; [exact I1|]. split; [auto|]. split; [lia|].
  pose proof (uval_bound d I2) as U. rewrite I1, <- Full_pw in U. assert (Ud : uval d = x * y) by lia. rewrite Ud in U. split; [auto|].
  split; [unfold is_negative; cbn [reduce_len data]; rewrite neg_words_val, Ud by auto; reflexivity|]. intros H. pose proof Full_Half. apply denotes_reduce; auto.
  - unfold in_range. lia.
  - rewrite Z.mod_small by lia. lia.
  - lia.
  - intros i Hi. destruct (Nat.lt_ge_cases i 256) as [L|L]; [apply I4; lia|apply nth_overflow; rewrite I1; exact L].
Qed.
Lemma denotes_topped b y : denotes b y -> 0 < y -> topped (firstn (len b) (data b)).
Proof.
  intros D P. destruct (loose_low b y (denotes_loose b y D ltac:(lia))) as (B1 & B2 & B3). right. rewrite B2.
  assert (N : forall k, (k < len b)%nat -> nth k (firstn (len b) (data b)) 0 = nth k (data b) 0).
  { intros k Hk. rewrite <- (firstn_skipn (len b) (data b)) at 2. rewrite app_nth1 by lia. reflexivity. }
  rewrite N by (pose proof (d_len _ _ D); lia). destruct (d_last _ _ D) as [L|L]; [|exact L]. rewrite L. change (1 - 1)%nat with O. intros E.
  assert (is_zero b = true) by (unfold is_zero; rewrite L, E; reflexivity). rewrite (is_zero_spec b y D) in *. lia.
Qed.
Lemma mag_mult_spec a b x y : denotes a x -> denotes b y -> 0 <= x -> 0 < y ->
  (x * y < Half -> gives (mag_mult a b) (x * y)) /\ (Half <= x * y -> stops (mag_mult a b)).
Proof.
  intros Da Db X Y. pose proof (denotes_loose a x Da X) as La. pose proof (denotes_loose b y Db ltac:(lia)) as Lb. unfold mag_mult.
  destruct (mul_loop _ _ _) as [d|] eqn:E.
  - destruct (mag_some a b x y d La Lb E) as (I1 & I2 & I3 & I4 & I5 & I6). cbv zeta. rewrite I5. split; intros H.
    + destruct (Z.leb_spec Half (x * y)); [lia|]. eexists. split; [reflexivity|]. apply I6. lia.
    + destruct (Z.leb_spec Half (x * y)); [|lia]. exists Assert. split; [reflexivity|discriminate].
  - destruct (loose_low a x La) as (A1 & A2 & A3). destruct (loose_low b y Lb) as (B1 & B2 & B3).
    assert (Full <= x * y).
    { rewrite <- A1, <- B1. pose proof (mul_loop_none _ _ _ A3 B3 (zeros_words MAX_LEN)) as M. rewrite zeros_len, uval_zeros in M. change MAX_LEN with 256%nat in M. rewrite <- Full_pw in M. apply M; auto.
      - apply (denotes_topped b y Db Y). - intros i _. apply nth_repeat. - rewrite A2. pose proof (l_len _ _ La). lia. }
    pose proof Full_Half. pose proof Half_pos. split; [lia|]. intros _. exists Index. split; [reflexivity|discriminate].
Qed.
Lemma denotes_ONE : denotes ONE 1.
Proof.
  pose proof Half_top as HT. pose proof (pw_pos 255). pose proof Full_Half. constructor; cbn [data len ONE].
  - cbn [length]. rewrite zeros_len. reflexivity.
  - constructor; [apply word_mk; lia|apply zeros_words].
  - unfold in_range. lia.
  - rewrite uval_cons, uval_zeros, Z.mod_small by lia. lia.
  - lia.
  - intros [|i] Hi; [lia|]. apply nth_repeat.
  - auto.
Qed.
Lemma is_one_spec b z : denotes b z -> is_one b = (z =? 1).
Proof.
  intros D. destruct (Z.eqb_spec z 1) as [->|N].
  - rewrite (denotes_inj b ONE 1 D denotes_ONE). reflexivity.
  - unfold is_one. destruct (Nat.eqb_spec (len b) 1) as [L|L]; [|reflexivity]. destruct (Z.eqb_spec (nth 0 (data b) 0) 1) as [E|E]; [|reflexivity]. destruct N.
    destruct D as [S F R V _ A _]. assert (U : uval (data b) = 1).
    { destruct (data b) as [|w ws]; [discriminate|]. cbn [nth] in E. rewrite uval_cons, (uval_all0 ws); [lia|]. intros i. apply (A (Datatypes.S i)). lia. }
    rewrite U in V. rewrite <- (sgn_of_mod z R), <- V. unfold sgn_of. pose proof (d_range _ _ denotes_ONE) as R1. unfold in_range in R1. destruct (Z.ltb_spec 1 Half); lia.
Qed.
Lemma gives_bind r z (f : big -> res big) : gives r z -> exists b, denotes b z /\ bind r f = f b.
Proof. intros (b & -> & D). exists b. auto. Qed.
Lemma abs_part a x : denotes a x -> (x <> - Half -> gives (if is_negative a then negate a else Ok a) (Z.abs x)) /\ (x = - Half -> (if is_negative a then negate a else Ok a) = Stop Assert).
Proof.
  intros D. rewrite (neg_iff a x D). pose proof Half_pos. destruct (Z.ltb_spec x 0).
  - rewrite Z.abs_neq by lia. apply negate_spec, D.
  - rewrite Z.abs_eq by lia. split; [|lia]. intros _. exists a. auto.
Qed.
Lemma mult_spec a b x y : denotes a x -> denotes b y ->
  (forall c, mult a b = Ok c -> denotes c (x * y)) /\ (forall w, mult a b = Stop w -> w <> Fuel) /\
  (x <> - Half -> y <> - Half -> Z.abs (x * y) < Half -> gives (mult a b) (x * y)).
Proof.
  intros Da Db. unfold mult. rewrite (is_zero_spec b y Db), (is_one_spec b y Db), (neg_iff a x Da), (neg_iff b y Db).
  destruct (Z.eqb_spec y 0) as [->|Y0].
  { rewrite Z.mul_0_r. split; [intros c [= <-]; exact denotes_zeros|]. split; [discriminate|]. intros. exists ZERO. split; [reflexivity|exact denotes_zeros]. }
  destruct (Z.eqb_spec y 1) as [->|Y1].
  { rewrite Z.mul_1_r. split; [intros c [= <-]; exact Da|]. split; [discriminate|]. intros. exists a. auto. }
  pose proof (abs_part a x Da) as [PA PA']. pose proof (abs_part b y Db) as [PB PB']. rewrite (neg_iff a x Da) in PA, PA'. rewrite (neg_iff b y Db) in PB, PB'.
  destruct (Z.eq_dec x (- Half)) as [Ex|Nx].
  { rewrite (PA' Ex). cbn [bind]. split; [discriminate|]. split; [intros w [= <-]; discriminate|]. lia. }
  specialize (PA Nx). destruct PA as (a1 & -> & Da1). cbn [bind].
  destruct (Z.eq_dec y (- Half)) as [Ey|Ny].
  { rewrite (PB' Ey). cbn [bind]. split; [discriminate|]. split; [intros w [= <-]; discriminate|]. lia. }
  specialize (PB Ny). destruct PB as (b1 & -> & Db1). cbn [bind].
  destruct (mag_mult_spec a1 b1 (Z.abs x) (Z.abs y) Da1 Db1 ltac:(lia) ltac:(lia)) as [M1 M2]. unfold mag_mult in M1, M2. rewrite <- Z.abs_mul in M1, M2.
  destruct (Z.lt_ge_cases (Z.abs (x * y)) Half) as [L|L].
  - destruct (M1 L) as (r & Er & Dr). destruct (mul_loop _ _ _) as [d|]; [|discriminate]. cbv zeta in Er |- *. destruct (is_negative _); [discriminate|]. injection Er as ->.
    assert (G : gives (if xorb (x <? 0) (y <? 0) then negate r else Ok r) (x * y)).
    { destruct (xorb (x <? 0) (y <? 0)) eqn:X.
      - assert (x * y = - Z.abs (x * y)) as -> by (destruct (Z.ltb_spec x 0), (Z.ltb_spec y 0); cbn in X; try discriminate; nia). apply negate_spec; [exact Dr|]. pose proof Half_pos. lia.
      - exists r. split; [reflexivity|]. assert (x * y = Z.abs (x * y)) as -> by (destruct (Z.ltb_spec x 0), (Z.ltb_spec y 0); cbn in X; try discriminate; nia). exact Dr. }
    destruct G as (g & Eg & Dg). rewrite Eg. split; [intros c [= <-]; exact Dg|]. split; [discriminate|]. intros. exists g. auto.
  - destruct (M2 L) as (w & Ew & Nw). destruct (mul_loop _ _ _) as [d|].
    + cbv zeta in Ew |- *. destruct (is_negative _); [|discriminate]. split; [discriminate|]. split; [intros w' [= <-]; discriminate|]. lia.
    + split; [discriminate|]. split; [intros w' [= <-]; discriminate|]. lia.
Qed.
