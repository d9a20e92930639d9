(** C164-C168: dates and times. *)
From Coq Require Import ZArith Bool List Lia ZifyBool.
From Verif Require Import DateModel DateSpec.
From Verif Require DateProofs DateProofs2.
Import ListNotations.
Local Open Scope Z_scope.

(** C164: the fields of a DateTime made from a time show that time: date, time of day, weekday and day of the year.
    Missing: times after 2255, and times before 1970 that are no whole seconds. *)
Theorem C164_fields_partial t : exact t -> shows t (from_time t) /\ time (from_time t) = t.
Proof. intros H. split; [now apply DateProofs2.from_time_shows|reflexivity]. Qed.
(** Only one set of fields shows a time. *)
Theorem C164_unique t d : exact t -> shows t d -> time d = t -> d = from_time t.
Proof. intros X H T. apply (DateProofs2.shows_unique t); [exact H|now apply DateProofs2.from_time_shows|rewrite T; reflexivity]. Qed.
Example C164_fields_ex : exact 1709210096789012 /\ exact (-86400000000) /\
  from_time 1709210096789012 = DateTime 789012 56 34 12 29 1 3 2024 59 1709210096789012 /\ from_time (-86400000000) = DateTime 0 0 0 0 31 11 2 1969 364 (-86400000000).
Proof. split; [left; lia|]. split; [right; split; [lia|reflexivity]|]. split; vm_compute; reflexivity. Qed.
(** One microsecond before 1970 shows microsecond -1; and the last microsecond of a second in 2255 shows the next second, because the seconds
    are computed with a double. *)
Theorem C164_fields_refuted :
  (usec (from_time (-1)) = -1 /\ fields_date (from_time (-1)) = (1970, 0, 1) /\ ~ shows (-1) (from_time (-1))) /\
  (let t := 9007199254999999 in usec (from_time t) = 999999 /\ sec (from_time t) = 35 /\ sec (from_time (t - 1)) = 34 /\ ~ shows t (from_time t)).
Proof.
  assert (E1 : from_time (-1) = DateTime (-1) 0 0 0 1 0 3 1970 0 (-1)) by (vm_compute; reflexivity).
  assert (E2 : from_time 9007199254999999 = DateTime 999999 35 47 23 5 5 1 2255 155 9007199254999999) by (vm_compute; reflexivity).
  split.
  - rewrite E1. split; [reflexivity|]. split; [reflexivity|]. intros (n & _ & _ & _ & _ & _ & H & _). cbn in H. lia.
  - cbv zeta. rewrite E2. split; [reflexivity|]. split; [reflexivity|]. split; [vm_compute; reflexivity|].
    intros (n & _ & H & _). cbn [hour min sec usec] in H. lia.
Qed.

(** C165: a DateTime made from a date and a time of day has these fields; a day the month does not have is counted on from the first of the month. *)
Theorem C165_date_partial y m d h mi s us : valid (y, m, d) -> clock h mi s us -> exact (time (from_date y m d h mi s us)) ->
  let x := from_date y m d h mi s us in fields_date x = (y, m, d) /\ hour x = h /\ min x = mi /\ sec x = s /\ usec x = us /\ shows (time x) x.
Proof.
  intros V C X. cbv zeta. destruct (DateProofs2.from_date_fields y m d h mi s us V C X) as (H1 & H2 & H3 & H4 & H5).
  repeat (split; [assumption|]). apply DateProofs2.from_time_shows in X. exact X.
Qed.
Theorem C165_overflow y m n d h mi s us : day_of n (y, m, 1) ->
  from_date y m d h mi s us = from_time ((86400 * (n + d - 1) + 3600 * h + 60 * mi + s) * 1000000 + us).
Proof. exact (DateProofs2.from_date_day y m n d h mi s us). Qed.
(** Taking a time apart and putting it together again. *)
Theorem C165_round_trip_partial t : exact t -> let d := from_time t in
  from_date (year d) (month d) (day d) (hour d) (min d) (sec d) (usec d) = d.
Proof.
  intros X. cbv zeta. pose proof (DateProofs2.from_time_shows t X) as (n & D & E & _). unfold from_date. rewrite DateProofs2.timegm_number.
  pose proof (DateProofs.day_of_unique _ _ D) as U. destruct (DateProofs.date_of_ok n) as [_ N]. rewrite <- U in N. unfold fields_date in N. rewrite N. unfold SEC. now rewrite <- E.
Qed.
Example C165_date_ex : valid (2024, 1, 29) /\ clock 23 59 58 7 /\ exact (time (from_date 2024 1 29 23 59 58 7)) /\ fields_date (from_date 2023 1 31 0 0 0 0) = (2023, 2, 3) /\
  fields_date (from_date 1900 1 28 0 0 0 0) = (1900, 1, 28) /\ exact (time (from_date 1900 1 28 0 0 0 0)).
Proof.
  split; [apply DateProofs.valid_b; vm_compute; intuition discriminate|]. split; [unfold clock; lia|]. split; [left; vm_compute; intuition discriminate|].
  split; [vm_compute; reflexivity|]. split; [vm_compute; reflexivity|]. right. split; [vm_compute; intuition discriminate|vm_compute; reflexivity].
Qed.

(** C166: adding months and years moves the month and leaves the day and the time of day, if the month has that day; adding seconds to weeks
    moves the time. *)
Theorem C166_months_partial t k : exact t -> let d := from_time t in let d' := add_months d k in
  let y := (12 * year d + month d + k) / 12 in let m := (12 * year d + month d + k) mod 12 in
  valid (y, m, day d) -> exact (time d') ->
  fields_date d' = (y, m, day d) /\ hour d' = hour d /\ min d' = min d /\ sec d' = sec d /\ usec d' = usec d /\ shows (time d') d'.
Proof.
  intros X. cbv zeta. pose proof (DateProofs2.from_time_shows t X) as SH. set (d := from_time t) in *. intros V X'.
  pose proof SH as (n & [D _] & _ & Hh & Hm & Hs & Hu & _). apply DateProofs.valid_b in D. destruct D as [Dm _].
  destruct (Z.eq_dec k 0) as [->|Hk].
  - unfold add_months. cbn [Z.eqb]. rewrite Z.add_0_r in *. assert (Ey : (12 * year d + month d) / 12 = year d) by (symmetry; apply Z.div_unique with (r := month d); [left; lia|reflexivity]).
    assert (Em : (12 * year d + month d) mod 12 = month d) by (symmetry; apply Z.mod_unique with (q := year d); [left; lia|reflexivity]). rewrite Ey, Em.
    repeat (split; [reflexivity|]). exact SH.
  - rewrite (DateProofs2.add_months_eq d k Dm Hk) in *. apply C165_date_partial; [exact V|unfold clock; lia|exact X'].
Qed.
Theorem C166_years_partial t k : exact t -> let d := from_time t in let d' := add_years d k in
  valid (year d + k, month d, day d) -> exact (time d') ->
  fields_date d' = (year d + k, month d, day d) /\ hour d' = hour d /\ min d' = min d /\ sec d' = sec d /\ usec d' = usec d /\ shows (time d') d'.
Proof.
  intros X. cbv zeta. pose proof (DateProofs2.from_time_shows t X) as SH. set (d := from_time t) in *. intros V X'.
  pose proof SH as (n & [D _] & _ & Hh & Hm & Hs & Hu & _). unfold add_years in *. destruct (k =? 0) eqn:E.
  - assert (k = 0) by lia. subst k. rewrite Z.add_0_r. repeat (split; [reflexivity|]). exact SH.
  - apply C165_date_partial; [exact V|unfold clock; lia|exact X'].
Qed.
Theorem C166_units d u k : time (add_units d u k) = time d + k * match u with Seconds => 1000000 | Minutes => 60000000 | Hours => 3600000000 | Days => 86400000000 | Weeks => 604800000000 end /\
  add_units d u k = from_time (time (add_units d u k)).
Proof. unfold add_units. destruct u; cbn [unit_seconds]; unfold SEC; rewrite DateProofs2.time_from_time; split; reflexivity. Qed.
Example C166_months_ex : let d := from_date 2024 11 31 10 0 0 5 in exact (time d) /\ fields_date (add_months d (-10)) = (2024, 2, 2) /\ fields_date (add_months d (-11)) = (2024, 0, 31) /\
  fields_date (add_months d 1) = (2025, 0, 31) /\ fields_date (add_months d 36) = (2027, 11, 31) /\ valid (2025, 0, 31) /\ exact (time (add_months d 1)).
Proof.
  cbv zeta. split; [left; vm_compute; intuition discriminate|]. repeat (split; [vm_compute; reflexivity|]). split; [apply DateProofs.valid_b; vm_compute; intuition discriminate|].
  left; vm_compute; intuition discriminate.
Qed.

(** C167: a date and time with an offset shows its own time, moved by the offset, whatever is done to it; converting keeps the time, replacing the
    offset keeps the fields.  Missing: adding no years or no months. *)
Theorem C167_offset_partial z os : (exists t off, z = from_time_tz t off) \/ (exists y mo d h mi s us off, z = from_date_tz y mo d h mi s us off) ->
  Forall (fun o => o <> AddYears 0 /\ o <> AddMonths 0) os ->
  let z' := fold_left (fun z o => run o z) os z in let t := time (date_time z') + gmt_offset z' * 1000000 in
  exact t -> shows t (date_time z').
Proof.
  intros Hz Ho. cbv zeta. assert (A : DateProofs2.agrees z).
  { destruct Hz as [(t & off & ->)|(y & mo & d & h & mi & s & us & off & ->)]; [apply DateProofs2.agrees_to, DateProofs2.agrees_0|apply DateProofs2.agrees_with, DateProofs2.agrees_0]. }
  clear Hz. revert z A. induction Ho as [|o os [N1 N2] Ho IH]; intros z A; cbn [fold_left]; [now apply DateProofs2.agrees_shows|].
  apply IH. apply DateProofs2.agrees_run; [|exact A]. intros [E|E]; contradiction.
Qed.
Theorem C167_to z off : time (date_time (to_gmt_offset z off)) = time (date_time z) /\ gmt_offset (to_gmt_offset z off) = off.
Proof. unfold to_gmt_offset. destruct (gmt_offset z =? off) eqn:E; split; try reflexivity. lia. Qed.
Theorem C167_with z off : let z' := with_gmt_offset z off in let d := date_time z in let d' := date_time z' in
  fields_date d' = fields_date d /\ hour d' = hour d /\ min d' = min d /\ sec d' = sec d /\ usec d' = usec d /\ weekday d' = weekday d /\ year_day d' = year_day d /\
  time d' + off * 1000000 = time d + gmt_offset z * 1000000 /\ gmt_offset z' = off.
Proof. cbv zeta. unfold with_gmt_offset. cbn. repeat (split; [reflexivity|]). split; [|reflexivity]. unfold SEC. ring. Qed.
(** Adding to a time with an offset keeps the offset and, for seconds to weeks, moves the time. *)
Theorem C167_add z u k : time (date_time (add_units_tz z u k)) = time (date_time z) + k * (unit_seconds u * 1000000) /\ gmt_offset (add_units_tz z u k) = gmt_offset z.
Proof. unfold add_units_tz. destruct (C167_to (Tz (add_units (date_time z) u k) 0) (gmt_offset z)) as [-> ->]. split; reflexivity. Qed.
(** Adding years or months moves the local date: the fields as in C166. *)
Theorem C167_months_partial z k : k <> 0 -> let d := date_time z in let z' := add_months_tz z k in let d' := date_time z' in
  let y := (12 * year d + month d + k) / 12 in let m := (12 * year d + month d + k) mod 12 in
  0 <= month d < 12 -> valid (y, m, day d) -> clock (hour d) (min d) (sec d) (usec d) -> exact (time d' + gmt_offset z' * 1000000) ->
  fields_date d' = (y, m, day d) /\ hour d' = hour d /\ min d' = min d /\ sec d' = sec d /\ usec d' = usec d /\ gmt_offset z' = gmt_offset z.
Proof.
  intros Hk. cbv zeta. intros Hm V C X. pose proof (C167_with (Tz (add_months (date_time z) k) 0) (gmt_offset z)) as W. cbv zeta in W.
  change (with_gmt_offset (Tz (add_months (date_time z) k) 0) (gmt_offset z)) with (add_months_tz z k) in W. cbn [date_time gmt_offset] in W.
  generalize dependent (add_months_tz z k). intros z' X (F1 & F2 & F3 & F4 & F5 & _ & _ & F6 & F7). rewrite F1, F2, F3, F4, F5, F7. rewrite F7, F6 in X. rewrite Z.add_0_r in X.
  rewrite (DateProofs2.add_months_eq _ _ Hm Hk) in X |- *.
  pose proof (C165_date_partial _ _ _ _ _ _ _ V C X) as (H1 & H2 & H3 & H4 & H5 & _). rewrite H1, H2, H3, H4, H5. repeat split.
Qed.
Theorem C167_years_partial z k : k <> 0 -> let d := date_time z in let z' := add_years_tz z k in let d' := date_time z' in
  valid (year d + k, month d, day d) -> clock (hour d) (min d) (sec d) (usec d) -> exact (time d' + gmt_offset z' * 1000000) ->
  fields_date d' = (year d + k, month d, day d) /\ hour d' = hour d /\ min d' = min d /\ sec d' = sec d /\ usec d' = usec d /\ gmt_offset z' = gmt_offset z.
Proof.
  intros Hk. cbv zeta. intros V C X. pose proof (C167_with (Tz (add_years (date_time z) k) 0) (gmt_offset z)) as W. cbv zeta in W.
  change (with_gmt_offset (Tz (add_years (date_time z) k) 0) (gmt_offset z)) with (add_years_tz z k) in W. cbn [date_time gmt_offset] in W.
  generalize dependent (add_years_tz z k). intros z' X (F1 & F2 & F3 & F4 & F5 & _ & _ & F6 & F7). rewrite F1, F2, F3, F4, F5, F7. rewrite F7, F6 in X. rewrite Z.add_0_r in X.
  assert (E : add_years (date_time z) k = from_date (year (date_time z) + k) (month (date_time z)) (day (date_time z)) (hour (date_time z)) (min (date_time z)) (sec (date_time z)) (usec (date_time z)))
    by (unfold add_years; destruct (k =? 0) eqn:E0; [lia|reflexivity]).
  rewrite E in X |- *.
  pose proof (C165_date_partial _ _ _ _ _ _ _ V C X) as (H1 & H2 & H3 & H4 & H5 & _). rewrite H1, H2, H3, H4, H5. repeat split.
Qed.
Example C167_offset_ex : let z := from_time_tz 1709210096789012 19800 in
  fields_date (date_time z) = (2024, 1, 29) /\ hour (date_time z) = 18 /\ min (date_time z) = 4 /\
  (let z' := fold_left (fun z o => run o z) [To (-28800); AddMonths 12; AddUnits Days 3; With 0] z in
   exact (time (date_time z') + gmt_offset z' * 1000000) /\ fields_date (date_time z') = (2025, 2, 4) /\ hour (date_time z') = 4).
Proof. cbv zeta. repeat (split; [vm_compute; reflexivity|]). split; [left; vm_compute; intuition discriminate|]. split; vm_compute; reflexivity. Qed.
Example C167_months_ex : let z := from_date_tz 2024 0 31 1 30 0 0 7200 in valid (2024, 2, 31) /\ clock 1 30 0 0 /\
  exact (time (date_time (add_months_tz z 2)) + 7200 * 1000000) /\ fields_date (date_time (add_months_tz z 2)) = (2024, 2, 31) /\ hour (date_time (add_months_tz z 2)) = 1.
Proof.
  cbv zeta. split; [apply DateProofs.valid_b; vm_compute; intuition discriminate|]. split; [unfold clock; lia|]. split; [left; vm_compute; intuition discriminate|].
  split; vm_compute; reflexivity.
Qed.
(** Adding 0 years or months moves the time by the offset and leaves the fields: the offset is taken off a second time. *)
Theorem C167_offset_refuted : let z := from_time_tz 1709210096789012 3600 in
  (time (date_time (add_years_tz z 0)) = time (date_time z) - 3600000000 /\ ~ shows (time (date_time (add_years_tz z 0)) + 3600000000) (date_time (add_years_tz z 0))) /\
  time (date_time (add_months_tz z 0)) = time (date_time z) - 3600000000.
Proof.
  cbv zeta. assert (E : add_years_tz (from_time_tz 1709210096789012 3600) 0 = Tz (DateTime 789012 56 34 13 29 1 3 2024 59 1709206496789012) 3600) by (vm_compute; reflexivity).
  rewrite E. split; [|vm_compute; reflexivity]. split; [vm_compute; reflexivity|]. intros (n & _ & H & _). cbn [date_time time hour min sec usec] in H. lia.
Qed.

(** C168: comparing compares times, and with times the dates: an earlier day of the calendar is an earlier time. *)
Theorem C168_compare a b : after a b = (time b <? time a) /\ before a b = (time a <? time b) /\
  (compare_to a b = 0 <-> time a = time b) /\ (compare_to a b < 0 <-> time a < time b) /\ (0 < compare_to a b <-> time b < time a).
Proof. unfold after, before, compare_to. destruct (time a =? time b) eqn:E1; [lia|]. destruct (time b <? time a) eqn:E2; lia. Qed.
Theorem C168_order_partial t t' : exact t -> exact t' -> let d := from_time t in let d' := from_time t' in
  (year d < year d' \/ (year d = year d' /\ before_in_year d d')) -> before d d' = true.
Proof.
  intros X X'. cbv zeta. intros H. apply Z.ltb_lt.
  exact (DateProofs2.order_ok _ _ _ _ (DateProofs2.from_time_shows t X) (DateProofs2.from_time_shows t' X') H).
Qed.
(** The years between two dates: the difference of the years, less one if the later date comes earlier in its year.  Missing: dates after
    February in a leap year and another year, and the time of day. *)
Theorem C168_years_partial t t' : exact t -> exact t' -> let d := from_time t in let d' := from_time t' in
  (leap (year d) <-> leap (year d')) \/ (month d < 2 /\ month d' < 2) -> year d' < year d ->
  (before_in_year d d' -> diff_years d d' = year d - year d' - 1) /\ (~ before_in_year d d' -> diff_years d d' = year d - year d') /\ diff_years d' d = - diff_years d d'.
Proof.
  intros X X'. cbv zeta. intros L Y. pose proof (DateProofs2.from_time_shows t X) as SH. pose proof (DateProofs2.from_time_shows t' X') as SH'.
  pose proof (DateProofs2.year_day_month _ _ _ _ SH SH' L) as B. set (d := from_time t) in *. set (d' := from_time t') in *. clearbody d d'.
  unfold diff_years. cbv zeta. destruct (year d - year d' <? 0) eqn:E1; [lia|]. destruct (year d' - year d <? 0) eqn:E2; [|lia]. destruct (year d - year d' =? 0) eqn:E3; [lia|].
  destruct (year_day d <? year_day d') eqn:E4.
  - assert (HB : before_in_year d d') by (apply B; lia). split; [intros _; reflexivity|]. split; [intros N; contradiction|reflexivity].
  - split; [intros H; apply B in H; lia|]. split; reflexivity.
Qed.
Example C168_years_ex : let d := from_date 2021 5 1 0 0 0 0 in let d' := from_date 2018 6 1 0 0 0 0 in
  exact (time d) /\ exact (time d') /\ ~ leap 2021 /\ ~ leap 2018 /\ before_in_year d d' /\ diff_years d d' = 2 /\ diff_years d' d = -2 /\ before d' d = true.
Proof.
  cbv zeta. split; [left; vm_compute; intuition discriminate|]. split; [left; vm_compute; intuition discriminate|].
  split; [rewrite <- DateProofs.leap_b; vm_compute; discriminate|]. split; [rewrite <- DateProofs.leap_b; vm_compute; discriminate|].
  split; [left; vm_compute; reflexivity|]. split; [vm_compute; reflexivity|]. split; vm_compute; reflexivity.
Qed.
(** From March 1, 2020 to March 1, 2021 are no years, because days of the year are compared; and a year counts before its last hours have passed. *)
Theorem C168_years_refuted :
  (let d := from_date 2021 2 1 0 0 0 0 in let d' := from_date 2020 2 1 0 0 0 0 in add_years d' 1 = d /\ ~ before_in_year d d' /\ diff_years d d' = 0) /\
  (let d := from_date 2022 2 1 0 0 0 0 in let d' := from_date 2021 2 1 12 0 0 0 in before d (add_years d' 1) = true /\ diff_years d d' = 1).
Proof.
  split; cbv zeta; [|split; vm_compute; reflexivity]. split; [vm_compute; reflexivity|]. split; [|vm_compute; reflexivity].
  unfold before_in_year. intros [H|[_ H]]; vm_compute in H; discriminate.
Qed.

Print Assumptions C164_fields_partial. Print Assumptions C164_unique. Print Assumptions C164_fields_refuted.
Print Assumptions C165_date_partial. Print Assumptions C165_overflow. Print Assumptions C165_round_trip_partial.
Print Assumptions C166_months_partial. Print Assumptions C166_years_partial. Print Assumptions C166_units.
Print Assumptions C167_offset_partial. Print Assumptions C167_to. Print Assumptions C167_with. Print Assumptions C167_add. Print Assumptions C167_months_partial. Print Assumptions C167_years_partial. Print Assumptions C167_offset_refuted.
Print Assumptions C168_compare. Print Assumptions C168_order_partial. Print Assumptions C168_years_partial. Print Assumptions C168_years_refuted.
