(** The calendar: days and dates correspond, and the conversion to seconds is exact. *)
From Coq Require Import ZArith Bool List Lia ZifyBool.
From Verif Require Import DateModel DateSpec.
Import ListNotations.
Local Open Scope Z_scope.
Ltac Zify.zify_post_hook ::= Z.to_euclidean_division_equations.

(** ** Doubles *)
Lemma rdiv_floor a P : 0 <= a -> 524288 <= P -> rdiv (a * P) SEC / P = a / SEC.
Proof.
  intros Ha HP. unfold rdiv. assert (S0 : SEC = 1000000) by reflexivity. rewrite S0. clear S0.
  pose proof (Z.div_mod a 1000000 ltac:(lia)) as Ea. pose proof (Z.mod_pos_bound a 1000000 ltac:(lia)) as Hr.
  pose proof (Z.div_mod (a * P) 1000000 ltac:(lia)) as Eq. pose proof (Z.mod_pos_bound (a * P) 1000000 ltac:(lia)) as Hq.
  set (k := a / 1000000) in *. set (r := a mod 1000000) in *. set (q := a * P / 1000000) in *. set (s := (a * P) mod 1000000) in *.
  clearbody k r q s.
  assert (Hl : k * P <= q) by nia.
  assert (Hu : q < (k + 1) * P) by nia.
  assert (Hu2 : 1000000 <= 2 * s -> q + 1 < (k + 1) * P) by (intros; nia).
  match goal with |- ?x / P = k => assert (k * P <= x < (k + 1) * P) end.
  { destruct (2 * s <? 1000000) eqn:E1; [lia|]. destruct (1000000 <? 2 * s) eqn:E2; [lia|]. destruct (Z.even q); lia. }
  symmetry. apply Z.div_unique with (r := (if 2 * s <? 1000000 then q else if 1000000 <? 2 * s then q + 1 else if Z.even q then q else q + 1) - P * k); [|ring].
  left. nia.
Qed.
Lemma div_trunc_floor a : 0 <= a < 2 ^ 53 -> div_trunc a SEC = a / SEC.
Proof.
  intros Ha. unfold div_trunc.
  assert (Hl : Z.log2 a <= 52) by (destruct (Z.eq_dec a 0) as [->|]; [cbn; lia|]; assert (Z.log2 a < 53) by (apply Z.log2_lt_pow2; lia); lia).
  change (Z.log2 SEC) with 19. set (l := Z.log2 a - 19). assert (l <= 33) by lia.
  match goal with |- context [if ?c then l - 1 else l] => set (l2 := if c then l - 1 else l); assert (H2 : l2 <= 33) by (unfold l2; destruct c; lia) end.
  clearbody l2. destruct (0 <=? 52 - l2) eqn:E; [|lia]. apply rdiv_floor; [lia|].
  change 524288 with (2 ^ 19). apply Z.pow_le_mono_r; lia.
Qed.
Lemma to_seconds_quot t : - 2 ^ 53 < t < 2 ^ 53 -> to_seconds t = Z.sgn t * (Z.abs t / SEC).
Proof.
  intros H. unfold to_seconds, to_double. assert (Z.abs t < 2 ^ 53) by lia. destruct (Z.abs t <? 2 ^ 53) eqn:E; [|lia].
  rewrite div_trunc_floor by lia. reflexivity.
Qed.
Lemma to_seconds_exact t : exact t -> to_seconds t = t / SEC /\ Z.rem t SEC = t mod SEC.
Proof.
  intros H. assert (- 2 ^ 53 < t < 2 ^ 53) by (unfold exact in H; lia). rewrite to_seconds_quot by lia.
  unfold exact, SEC in *. set (M := 2 ^ 53) in *. clearbody M.
  destruct H as [H|[H E]]; split; try (destruct (Z.eq_dec t 0) as [->|]; [reflexivity|]).
  - rewrite Z.sgn_pos by lia. rewrite Z.abs_eq by lia. lia.
  - apply Z.rem_mod_nonneg; lia.
  - rewrite Z.sgn_neg, Z.abs_neq by lia. lia.
  - lia.
Qed.

(** ** Years *)
Lemma leap_b y : is_leap y = true <-> leap y.
Proof.
  unfold is_leap, leap. rewrite andb_true_iff, orb_true_iff, negb_true_iff, !Z.eqb_eq, Z.eqb_neq. rewrite !Z.mod_divide by lia. tauto.
Qed.
Lemma year_length y : before_year (y + 1) = before_year y + (if is_leap y then 366 else 365).
Proof.
  assert (D : forall k, 1 < k -> (y - 1) / k = y / k - (if y mod k =? 0 then 1 else 0)).
  { intros k Hk. pose proof (Z.div_mod y k ltac:(lia)) as E. pose proof (Z.mod_pos_bound y k ltac:(lia)) as B. symmetry.
    destruct (y mod k =? 0) eqn:E0.
    - apply Z.div_unique with (r := k - 1); [left; lia|]. assert (y mod k = 0) by lia. nia.
    - apply Z.div_unique with (r := y mod k - 1); [left; lia|]. nia. }
  assert (HD : forall a b, 0 < a -> 0 < b -> y mod (a * b) = 0 -> y mod a = 0).
  { intros a b Ha Hb E0. assert (Hab : a * b <> 0) by nia. pose proof (Z.div_mod y (a * b) Hab) as E. rewrite E0 in E. rewrite E. replace (a * b * (y / (a * b)) + 0) with (b * (y / (a * b)) * a) by ring. apply Z.mod_mul. lia. }
  pose proof (HD 4 25 ltac:(lia) ltac:(lia)) as H1. pose proof (HD 100 4 ltac:(lia) ltac:(lia)) as H2. change (4 * 25) with 100 in H1. change (100 * 4) with 400 in H2. clear HD.
  unfold before_year, is_leap. replace (y + 1 - 1) with y by ring. rewrite !D by lia. clear D.
  generalize dependent (y mod 4). generalize dependent (y mod 100). generalize dependent (y mod 400). generalize (y / 4) (y / 100) (y / 400).
  intros a b c r3 r2 H2 r1 H1. destruct (r1 =? 0) eqn:E1; destruct (r2 =? 0) eqn:E2; destruct (r3 =? 0) eqn:E3; cbn [andb orb negb]; lia.
Qed.
Lemma before_year_mono a b : a <= b -> before_year a <= before_year b.
Proof. unfold before_year. intros. lia. Qed.
Lemma year_of_ok n : before_year (year_of n) <= n < before_year (year_of n + 1).
Proof.
  unfold year_of. set (y := 400 * n / 146097). cbv zeta.
  assert (before_year (y - 1) <= n /\ n < before_year (y + 2)).
  { unfold before_year. replace (y - 1 - 1) with (y - 2) by ring. replace (y + 2 - 1) with (y + 1) by ring. unfold y. clear y. lia. }
  destruct (n <? before_year y) eqn:E1; [replace (y - 1 + 1) with y by ring; lia|].
  destruct (before_year (y + 1) <=? n) eqn:E2; [replace (y + 1 + 1) with (y + 2) by ring; lia|lia].
Qed.
Lemma year_of_unique n y : before_year y <= n < before_year (y + 1) -> year_of n = y.
Proof.
  intros H. pose proof (year_of_ok n). destruct (Z.lt_trichotomy (year_of n) y) as [L|[E|L]]; [|exact E|].
  - pose proof (before_year_mono (year_of n + 1) y). lia.
  - pose proof (before_year_mono (y + 1) (year_of n)). lia.
Qed.

(** ** Months *)
Lemma sum_lengths y : sum (lengths y) = if is_leap y then 366 else 365.
Proof. unfold lengths. destruct (is_leap y); reflexivity. Qed.
Definition len (y m : Z) : Z := nth (Z.to_nat m) (lengths y) 0.
Lemma months m : 0 <= m < 12 -> m = 0 \/ m = 1 \/ m = 2 \/ m = 3 \/ m = 4 \/ m = 5 \/ m = 6 \/ m = 7 \/ m = 8 \/ m = 9 \/ m = 10 \/ m = 11.
Proof. lia. Qed.
Ltac each_month H := apply months in H; repeat (destruct H as [H|H]); subst.
Lemma length_of_len y m n : length_of y m n <-> 0 <= m < 12 /\ n = len y m.
Proof.
  split.
  - intros H. assert (Hm : 0 <= m < 12) by (destruct H as [[H _]|[[H _]|[[H _]|[H _]]]]; cbn in H; lia). split; [exact Hm|].
    pose proof (leap_b y) as L. destruct H as [[H ->]|[[H ->]|[[-> [H ->]]|[-> [H ->]]]]].
    + cbn in H. repeat (destruct H as [<-|H]; [reflexivity|]). destruct H.
    + cbn in H. repeat (destruct H as [<-|H]; [reflexivity|]). destruct H.
    + unfold len, lengths. cbn. apply L in H. now rewrite H.
    + unfold len, lengths. cbn. destruct (is_leap y); [exfalso; apply H, L; reflexivity|reflexivity].
  - intros [Hm ->]. pose proof (leap_b y) as L. unfold length_of. each_month Hm; cbn; try (left; split; [tauto|reflexivity]); try (right; left; split; [tauto|reflexivity]).
    right; right. unfold len, lengths. cbn. destruct (is_leap y); [left; intuition|right; split; [reflexivity|]; split; [|reflexivity]; intros H; apply L in H; discriminate].
Qed.
Lemma before_month_next y m : 0 <= m < 12 -> before_month y (m + 1) = before_month y m + len y m.
Proof. intros H. unfold before_month, len, lengths. each_month H; destruct (is_leap y); reflexivity. Qed.
Lemma len_bounds y m : 0 <= m < 12 -> 28 <= len y m <= 31.
Proof. intros H. unfold len, lengths. each_month H; destruct (is_leap y); match goal with |- _ <= ?x <= _ => let v := eval compute in x in change x with v end; lia. Qed.
Lemma before_month_12 y : before_month y 12 = if is_leap y then 366 else 365.
Proof. unfold before_month, lengths. destruct (is_leap y); reflexivity. Qed.
Lemma before_month_mono y a b : 0 <= a -> a <= b -> b <= 12 -> before_month y a <= before_month y b.
Proof.
  intros Ha Hab Hb. replace b with (a + Z.of_nat (Z.to_nat (b - a))) by lia.
  assert (a + Z.of_nat (Z.to_nat (b - a)) <= 12) as Hk by lia. revert Hk. generalize (Z.to_nat (b - a)). intros k.
  induction k as [|k IH]; intros Hk; [rewrite Z.add_0_r; lia|].
  replace (a + Z.of_nat (S k)) with (a + Z.of_nat k + 1) by lia. rewrite before_month_next by lia. pose proof (len_bounds y (a + Z.of_nat k)). lia.
Qed.
Lemma find_month_ok y n : 0 <= n < sum (lengths y) -> forall m d, find_month (lengths y) 0 n = (m, d) ->
  0 <= m < 12 /\ 0 <= d < len y m /\ before_month y m + d = n.
Proof.
  intros H m d. rewrite sum_lengths in H. unfold len, before_month, lengths in *. cbn [find_month].
  assert (Hf : 28 <= (if is_leap y then 29 else 28) <= 29) by (destruct (is_leap y); lia).
  assert (Hs : (if is_leap y then 366 else 365) = 337 + (if is_leap y then 29 else 28)) by (destruct (is_leap y); lia).
  rewrite Hs in H. clear Hs. set (f := if is_leap y then 29 else 28) in *. clearbody f.
  repeat match goal with |- (if ?c then _ else _) = _ -> _ => destruct c eqn:?E end; intros Em; injection Em as <- <-;
    match goal with |- context [Z.to_nat ?m] => let v := eval compute in m in change m with v end;
    cbv [sum fold_right firstn nth Z.to_nat Pos.to_nat Pos.iter_op Nat.add]; lia.
Qed.

(** ** Day numbers *)
Definition number (x : date) : Z := let '(y, m, d) := x in before_year y + before_month y m + (d - 1) - EPOCH.
Definition date_of (n : Z) : date :=
  let y := year_of (n + EPOCH) in let (m, d) := find_month (lengths y) 0 (n + EPOCH - before_year y) in (y, m, d + 1).
Lemma valid_b y m d : valid (y, m, d) <-> 0 <= m < 12 /\ 1 <= d <= len y m.
Proof.
  unfold valid. split.
  - intros (n & H & Hd). apply length_of_len in H. destruct H as [H ->]. tauto.
  - intros [H Hd]. exists (len y m). split; [apply length_of_len; tauto|exact Hd].
Qed.
Lemma date_of_ok n : valid (date_of n) /\ number (date_of n) = n.
Proof.
  unfold date_of. pose proof (year_of_ok (n + EPOCH)) as H. set (y := year_of (n + EPOCH)) in *. clearbody y. cbv zeta.
  destruct (find_month (lengths y) 0 (n + EPOCH - before_year y)) as [m d] eqn:E.
  rewrite year_length in H. apply find_month_ok in E; [|rewrite sum_lengths; lia]. destruct E as (Hm & Hd & Hn).
  split; [apply valid_b; lia|]. unfold number. lia.
Qed.
Lemma valid_range y m d : valid (y, m, d) -> 0 <= before_month y m + (d - 1) < (if is_leap y then 366 else 365).
Proof.
  intros H. apply valid_b in H. destruct H as [Hm Hd]. pose proof (before_month_next y m Hm). pose proof (before_month_mono y (m + 1) 12).
  pose proof (before_month_mono y 0 m). rewrite before_month_12 in *. change (before_month y 0) with 0 in *. lia.
Qed.
Lemma month_unique y m d m' d' : 0 <= m < 12 -> 0 <= m' < 12 -> 1 <= d <= len y m -> 1 <= d' <= len y m' -> before_month y m + d = before_month y m' + d' -> m = m' /\ d = d'.
Proof.
  intros Hm Hm' Hd Hd' E. pose proof (before_month_next y m Hm). pose proof (before_month_next y m' Hm').
  destruct (Z.lt_trichotomy m m') as [L|[->|L]]; [|lia|].
  - pose proof (before_month_mono y (m + 1) m'). lia.
  - pose proof (before_month_mono y (m' + 1) m). lia.
Qed.
Lemma number_inj x x' : valid x -> valid x' -> number x = number x' -> x = x'.
Proof.
  destruct x as [[y m] d], x' as [[y' m'] d']. intros V V' E. unfold number in E. pose proof (valid_range _ _ _ V) as R. pose proof (valid_range _ _ _ V') as R'.
  pose proof (year_length y). pose proof (year_length y').
  assert (Ey : y = y').
  { rewrite <- (year_of_unique (before_year y + before_month y m + (d - 1)) y) by lia.
    rewrite <- (year_of_unique (before_year y' + before_month y' m' + (d' - 1)) y') by lia. f_equal. lia. }
  subst y'. apply valid_b in V, V'. destruct (month_unique y m d m' d') as [-> ->]; [tauto|tauto|tauto|tauto|lia|reflexivity].
Qed.
Lemma date_of_number x : valid x -> date_of (number x) = x.
Proof. intros H. pose proof (date_of_ok (number x)) as [V E]. now apply number_inj. Qed.
Lemma number_next x : valid x -> exists x', next x x' /\ valid x' /\ number x' = number x + 1.
Proof.
  destruct x as [[y m] d]. intros V. pose proof V as V0. apply valid_b in V. destruct V as [Hm Hd].
  destruct (Z.eq_dec d (len y m)) as [->|N].
  - destruct (Z.eq_dec m 11) as [->|Nm].
    + exists (y + 1, 0, 1). change (len y 11) with 31. split; [apply next_year|]. split; [apply valid_b; pose proof (len_bounds (y + 1) 0); lia|].
      unfold number. rewrite year_length. pose proof (before_month_next y 11). pose proof (before_month_12 y) as E12. change (11 + 1) with 12 in *. change (len y 11) with 31 in *.
      change (before_month (y + 1) 0) with 0. lia.
    + exists (y, m + 1, 1). split; [apply next_month; [lia|apply length_of_len; tauto]|]. split; [apply valid_b; pose proof (len_bounds y (m + 1)); lia|].
      unfold number. rewrite before_month_next by lia. lia.
  - assert (V1 : valid (y, m, d + 1)) by (apply valid_b; lia). exists (y, m, d + 1). split; [now apply next_day|]. split; [exact V1|]. unfold number. lia.
Qed.
Lemma follows_dates k n : follows k (date_of n) (date_of (n + Z.of_nat k)).
Proof.
  induction k as [|k IH]; [rewrite Z.add_0_r; apply same|]. eapply later; [exact IH|].
  destruct (date_of_ok (n + Z.of_nat k)) as [V E]. destruct (number_next _ V) as (x' & Hn & V' & E').
  replace (date_of (n + Z.of_nat (S k))) with x'; [exact Hn|]. rewrite <- (date_of_number x' V'). f_equal. lia.
Qed.
Lemma epoch_date : date_of 0 = (1970, 0, 1).
Proof. reflexivity. Qed.
Lemma day_of_date n : day_of n (date_of n).
Proof.
  split; [apply date_of_ok|]. destruct (0 <=? n) eqn:E.
  - rewrite <- epoch_date. replace (date_of n) with (date_of (0 + Z.of_nat (Z.to_nat n))) by (f_equal; lia). apply follows_dates.
  - rewrite <- epoch_date. replace (date_of 0) with (date_of (n + Z.of_nat (Z.to_nat (- n)))) by (f_equal; lia). apply follows_dates.
Qed.
Lemma next_number x x' : valid x -> next x x' -> valid x' /\ number x' = number x + 1.
Proof.
  intros V H. destruct (number_next x V) as (x2 & H2 & V2 & E2). assert (x' = x2); [|subst; tauto].
  destruct H as [y m d Vn|y m n Hm Hl|y]; inversion H2; subst; try reflexivity.
  - match goal with H : length_of _ _ _ |- _ => apply length_of_len in H end. apply valid_b in Vn. lia.
  - apply valid_b in Vn. change (len y 11) with 31 in Vn. lia.
  - apply length_of_len in Hl. match goal with H : valid _ |- _ => apply valid_b in H end. lia.
  - lia.
  - match goal with H : valid (y, 11, 31 + 1) |- _ => apply valid_b in H; change (len y 11) with 31 in H end. lia.
  - lia.
Qed.
Lemma follows_number k x x' : valid x -> follows k x x' -> valid x' /\ number x' = number x + Z.of_nat k.
Proof.
  intros V H. induction H as [x|k x x' x'' H IH Hn]; [split; [exact V|lia]|]. destruct (IH V) as [V' E]. destruct (next_number _ _ V' Hn). split; [assumption|lia].
Qed.
Lemma day_of_unique n x : day_of n x -> x = date_of n.
Proof.
  intros [V H]. assert (V0 : valid (1970, 0, 1)) by (rewrite <- epoch_date; apply date_of_ok). assert (N0 : number (1970, 0, 1) = 0) by reflexivity.
  assert (E : number x = n). { destruct (0 <=? n) eqn:E; apply follows_number in H; [lia|exact V0|lia|exact V]. }
  rewrite <- E. symmetry. now apply date_of_number.
Qed.
