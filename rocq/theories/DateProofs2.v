(** The operations on dates and times. *)
From Coq Require Import ZArith Bool List Lia ZifyBool.
From Verif Require Import DateModel DateSpec DateProofs.
Import ListNotations.
Local Open Scope Z_scope.

Lemma gmtime_fields s : let c := gmtime s in
  (tm_year c + 1900, tm_mon c, tm_mday c) = date_of (s / 86400) /\
  s = 86400 * (s / 86400) + 3600 * tm_hour c + 60 * tm_min c + tm_sec c /\
  0 <= tm_hour c < 24 /\ 0 <= tm_min c < 60 /\ 0 <= tm_sec c < 60 /\
  tm_wday c = (s / 86400 + 4) mod 7 /\ tm_yday c = s / 86400 + EPOCH - before_year (tm_year c + 1900).
Proof.
  unfold gmtime, date_of. cbv zeta. destruct (find_month _ _ _) as [m d] eqn:E. cbn [tm_sec tm_min tm_hour tm_mday tm_mon tm_year tm_wday tm_yday].
  replace (year_of (s / 86400 + EPOCH) - 1900 + 1900) with (year_of (s / 86400 + EPOCH)) by ring. split; [reflexivity|].
  pose proof (Z.div_mod s 86400 ltac:(lia)) as Es. pose proof (Z.mod_pos_bound s 86400 ltac:(lia)) as Hr. set (r := s mod 86400) in *. clearbody r.
  split; [|split; [|split; [|split; [|split]]]]; try reflexivity; try (Z.to_euclidean_division_equations; lia).
Qed.
Lemma from_time_shows t : exact t -> shows t (from_time t).
Proof.
  intros H. destruct (to_seconds_exact t H) as [Es Er]. exists (t / SEC / 86400). unfold from_time. rewrite Es, Er.
  pose proof (gmtime_fields (t / SEC)) as G. cbv zeta in *. destruct (gmtime (t / SEC)) as [cs cm ch cd cmo cy cw cyd]. cbn [tm_sec tm_min tm_hour tm_mday tm_mon tm_year tm_wday tm_yday] in G.
  unfold fields_date. cbn [usec sec min hour day month weekday year year_day time tm_sec tm_min tm_hour tm_mday tm_mon tm_year tm_wday tm_yday].
  destruct G as (G1 & G2 & G3 & G4 & G5 & G6 & G7). rewrite G1.
  split; [apply day_of_date|]. pose proof (Z.div_mod t SEC ltac:(unfold SEC; lia)) as Et. pose proof (Z.mod_pos_bound t SEC ltac:(unfold SEC; lia)) as Ht. unfold SEC in *.
  split; [rewrite <- G2; lia|]. split; [lia|]. split; [lia|]. split; [lia|]. split; [lia|]. split.
  - rewrite G6. set (n := t / 1000000 / 86400). clearbody n. Z.to_euclidean_division_equations. destruct (_ =? 0) eqn:E; lia.
  - set (n := t / 1000000 / 86400) in *. destruct (date_of_ok n) as [V N]. rewrite <- G1 in V, N. pose proof (valid_range _ _ _ V) as R. unfold number in N.
    exists (Z.to_nat cyd). split; [lia|].
    assert (V0 : valid (cy + 1900, 0, 1)) by (apply valid_b; pose proof (len_bounds (cy + 1900) 0); lia).
    rewrite <- (date_of_number _ V0). replace (date_of n) with (date_of (number (cy + 1900, 0, 1) + Z.of_nat (Z.to_nat cyd))); [apply follows_dates|].
    f_equal. unfold number. change (before_month (cy + 1900) 0) with 0. lia.
Qed.
Lemma time_from_time t : time (from_time t) = t. Proof. reflexivity. Qed.

(** What is shown determines the fields. *)
Lemma shows_unique t d d' : shows t d -> shows t d' -> time d = time d' -> d = d'.
Proof.
  intros (n & D & E & Hh & Hm & Hs & Hu & W & k & Y & F) (n' & D' & E' & Hh' & Hm' & Hs' & Hu' & W' & k' & Y' & F') T.
  destruct d as [us s m h dd mo w y yd t0], d' as [us' s' m' h' dd' mo' w' y' yd' t0']. unfold fields_date in *. cbn [usec sec min hour day month weekday year year_day time] in *.
  assert (n = n' /\ h = h' /\ m = m' /\ s = s' /\ us = us') as (<- & <- & <- & <- & <-) by lia.
  apply day_of_unique in D, D'. rewrite <- D' in D. injection D as <- <- <-.
  assert (V0 : valid (y, 0, 1)) by (apply valid_b; pose proof (len_bounds y 0); lia).
  apply follows_number in F, F'; try exact V0. destruct F as [_ F], F' as [_ F']. rewrite W, W', Y, Y', T. f_equal. lia.
Qed.

Lemma timegm_number y m d h mi s : timegm y m d h mi s = 86400 * number (y, m, d) + 3600 * h + 60 * mi + s.
Proof. reflexivity. Qed.
(** The first of a month, and the days counted from it. *)
Lemma from_date_day y m n d h mi s us : day_of n (y, m, 1) -> from_date y m d h mi s us = from_time ((86400 * (n + d - 1) + 3600 * h + 60 * mi + s) * 1000000 + us).
Proof.
  intros D. pose proof (day_of_unique _ _ D) as E. destruct (date_of_ok n) as [_ N]. rewrite <- E in N. unfold from_date. rewrite timegm_number. f_equal. unfold number in *. unfold SEC. lia.
Qed.
Lemma from_date_fields y m d h mi s us : valid (y, m, d) -> clock h mi s us -> exact (time (from_date y m d h mi s us)) ->
  let x := from_date y m d h mi s us in fields_date x = (y, m, d) /\ hour x = h /\ min x = mi /\ sec x = s /\ usec x = us.
Proof.
  intros V C X. cbv zeta. pose proof (from_time_shows _ X) as (n & D & E & Hh & Hm & Hs & Hu & _). unfold from_date in *. rewrite time_from_time in *. set (t := timegm y m d h mi s * SEC + us) in *.
  assert (Et : t = (86400 * number (y, m, d) + 3600 * h + 60 * mi + s) * 1000000 + us) by (unfold t; rewrite timegm_number; reflexivity). clearbody t.
  unfold clock in C. assert (Hall : n = number (y, m, d) /\ hour (from_time t) = h /\ min (from_time t) = mi /\ sec (from_time t) = s /\ usec (from_time t) = us).
  { set (N := number (y, m, d)) in *. clearbody N. generalize dependent (hour (from_time t)). generalize dependent (min (from_time t)). generalize dependent (sec (from_time t)). generalize dependent (usec (from_time t)).
    intros; lia. }
  destruct Hall as (En & Hall). split; [|exact Hall]. apply day_of_unique in D. rewrite D, En. now apply date_of_number.
Qed.

(** ** Months and years *)
Lemma add_months_eq d k : 0 <= month d < 12 -> k <> 0 -> let t := 12 * year d + month d + k in
  add_months d k = from_date (t / 12) (t mod 12) (day d) (hour d) (min d) (sec d) (usec d).
Proof.
  intros Hm Hk. cbv zeta. unfold add_months. destruct (k =? 0) eqn:E0; [lia|].
  match goal with |- (let (y, m) := ?p in _) = _ => assert (Hp : p = ((12 * year d + month d + k) / 12, (12 * year d + month d + k) mod 12)) end; [|now rewrite Hp].
  generalize dependent (month d). generalize (year d). intros y m Hm.
  assert (U : forall a b, 12 * y + m + k = 12 * a + b -> 0 <= b < 12 -> (a, b) = ((12 * y + m + k) / 12, (12 * y + m + k) mod 12)).
  { intros a b E B. f_equal; [apply Z.div_unique with (r := b); [left; lia|lia]|apply Z.mod_unique with (q := a); [left; lia|lia]]. }
  pose proof (Z.quot_rem' k 12) as Q. destruct (Z.rem k 12 =? 0) eqn:E1; [apply U; lia|]. destruct (k <? 0) eqn:E2.
  - assert (-12 < Z.rem k 12 <= 0) by (Z.to_euclidean_division_equations; lia).
    destruct (m + Z.rem k 12 <? 0) eqn:E3; apply U; lia.
  - pose proof (Z.quot_rem' (m + k) 12) as Q2. assert (0 <= Z.rem (m + k) 12 < 12) by (apply Z.rem_bound_pos; lia). apply U; lia.
Qed.

(** ** Offsets *)
Definition agrees (z : tzdatetime) : Prop := date_time z = with_time (time (date_time z)) (from_time (time (date_time z) + gmt_offset z * SEC)).
Lemma with_time_time t d : time (with_time t d) = t. Proof. reflexivity. Qed.
Lemma agrees_0 t : agrees (Tz (from_time t) 0).
Proof. unfold agrees. cbn [date_time gmt_offset]. rewrite time_from_time. replace (t + 0 * SEC) with t by ring. reflexivity. Qed.
Lemma agrees_to z off : agrees z -> agrees (to_gmt_offset z off).
Proof. intros H. unfold to_gmt_offset. destruct (gmt_offset z =? off); [exact H|]. unfold agrees. cbn [date_time gmt_offset]. rewrite with_time_time. reflexivity. Qed.
Lemma agrees_with z off : agrees z -> agrees (with_gmt_offset z off).
Proof.
  unfold agrees, with_gmt_offset. cbn [date_time gmt_offset]. rewrite with_time_time. intros H. rewrite H at 2. 
  replace (time (date_time z) - (off - gmt_offset z) * SEC + off * SEC) with (time (date_time z) + gmt_offset z * SEC) by ring. reflexivity.
Qed.
Definition idle (o : op) : Prop := o = AddYears 0 \/ o = AddMonths 0.
Lemma agrees_run o z : ~ idle o -> agrees z -> agrees (run o z).
Proof.
  intros N H. destruct o as [off|off|u k|k|k]; cbn [run].
  - now apply agrees_to.
  - now apply agrees_with.
  - apply agrees_to, agrees_0.
  - apply agrees_with. unfold add_years. destruct (k =? 0) eqn:E; [exfalso; apply N; left; f_equal; lia|]. apply agrees_0.
  - apply agrees_with. unfold add_months. destruct (k =? 0) eqn:E; [exfalso; apply N; right; f_equal; lia|].
    match goal with |- agrees (Tz (let (y, m) := ?p in _) 0) => destruct p end. apply agrees_0.
Qed.
Lemma agrees_shows z : agrees z -> exact (time (date_time z) + gmt_offset z * SEC) -> shows (time (date_time z) + gmt_offset z * SEC) (date_time z).
Proof. intros H X. rewrite H. rewrite with_time_time. apply from_time_shows in X. exact X. Qed.

(** ** Years between *)
Lemma year_day_month d d' t t' : shows t d -> shows t' d' -> (leap (year d) <-> leap (year d')) \/ (month d < 2 /\ month d' < 2) ->
  (year_day d < year_day d' <-> before_in_year d d').
Proof.
  intros (n & [V _] & _ & _ & _ & _ & _ & _ & k & Y & F) (n' & [V' _] & _ & _ & _ & _ & _ & _ & k' & Y' & F') HL. unfold before_in_year, fields_date in *.
  assert (V0 : valid (year d, 0, 1)) by (apply valid_b; pose proof (len_bounds (year d) 0); lia).
  assert (V0' : valid (year d', 0, 1)) by (apply valid_b; pose proof (len_bounds (year d') 0); lia).
  apply follows_number in F, F'; try assumption. destruct F as [_ F], F' as [_ F']. unfold number in *. change (before_month (year d) 0) with 0 in F. change (before_month (year d') 0) with 0 in F'.
  apply valid_b in V, V'. destruct V as [Hm Hd], V' as [Hm' Hd'].
  assert (B : before_month (year d') (month d') = before_month (year d) (month d') /\ (month d < month d' -> before_month (year d) (month d + 1) <= before_month (year d) (month d')) /\
              (month d' < month d -> before_month (year d') (month d' + 1) <= before_month (year d) (month d))).
  { assert (Bm : forall m, 0 <= m <= 12 -> (leap (year d) <-> leap (year d')) \/ m < 2 -> before_month (year d') m = before_month (year d) m).
    { intros m Hm2 [H|H]. - assert (El : is_leap (year d') = is_leap (year d)) by (apply eq_true_iff_eq; rewrite !leap_b; tauto). unfold before_month, lengths. now rewrite El.
      - assert (m = 0 \/ m = 1) as [-> | ->] by lia; reflexivity. }
    split; [apply Bm; [lia|tauto]|]. split; intros L; [apply before_month_mono; lia|].
    rewrite <- (Bm (month d)) by (lia || tauto). apply before_month_mono; lia. }
  destruct B as (B1 & B2 & B3). pose proof (before_month_next (year d) (month d) Hm). pose proof (before_month_next (year d') (month d') Hm').
  destruct (Z.lt_trichotomy (month d) (month d')) as [L|[L|L]].
  - specialize (B2 L). lia.
  - rewrite L in *. lia.
  - specialize (B3 L). lia.
Qed.
Lemma shows_number t d : shows t d -> t = (86400 * number (fields_date d) + 3600 * hour d + 60 * min d + sec d) * 1000000 + usec d /\
  0 <= hour d < 24 /\ 0 <= min d < 60 /\ 0 <= sec d < 60 /\ 0 <= usec d < 1000000 /\ valid (fields_date d) /\ number (fields_date d) = before_year (year d) + year_day d - EPOCH.
Proof.
  intros (n & D & E & Hh & Hm & Hs & Hu & _ & k & Y & F). pose proof (day_of_unique _ _ D) as U. destruct (date_of_ok n) as [V N]. rewrite <- U in V, N.
  split; [rewrite N; exact E|]. repeat (split; [assumption|]).
  assert (V0 : valid (year d, 0, 1)) by (apply valid_b; pose proof (len_bounds (year d) 0); lia).
  apply follows_number in F; [|exact V0]. destruct F as [_ F]. rewrite F, Y. unfold number. change (before_month (year d) 0) with 0. clear. generalize (before_year (year d)) EPOCH. intros; lia.
Qed.
Lemma order_ok d d' t t' : shows t d -> shows t' d' -> year d < year d' \/ (year d = year d' /\ before_in_year d d') -> t < t'.
Proof.
  intros SH SH' H.
  assert (Y : year d = year d' -> before_in_year d d' -> year_day d < year_day d') by (intros E B; apply (year_day_month d d' t t' SH SH'); [left; rewrite E; tauto|exact B]).
  apply shows_number in SH, SH'. destruct SH as (E & Hh & Hm & Hs & Hu & V & N), SH' as (E' & Hh' & Hm' & Hs' & Hu' & V' & N').
  pose proof (valid_range _ _ _ V) as R. pose proof (valid_range _ _ _ V') as R'.
  assert (Nd : number (fields_date d) = before_year (year d) + before_month (year d) (month d) + (day d - 1) - EPOCH) by reflexivity.
  assert (Nd' : number (fields_date d') = before_year (year d') + before_month (year d') (month d') + (day d' - 1) - EPOCH) by reflexivity.
  assert (L : number (fields_date d) < number (fields_date d')).
  { destruct H as [H|[H B]].
    - pose proof (year_length (year d)). pose proof (before_year_mono (year d + 1) (year d')). lia.
    - specialize (Y H B). rewrite H in N. lia. }
  clear - E E' Hh Hm Hs Hu Hh' Hm' Hs' Hu' L. lia.
Qed.
