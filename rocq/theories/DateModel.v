(** Model of lib/std/time/datetime.c3 and of the parts of lib/std/time/time.c3 it uses.
    timegm and gmtime_r are the C library's and not in the repository: they are modelled as ISO C and POSIX define them, for the Gregorian
    calendar.  Simplifications: int, long and Time arithmetic does not wrap (times and years far outside of what a clock shows), and the
    conversion of the month and weekday numbers to enums is left out: months are 0-11, weekdays 0-6 from Monday. *)
From Coq Require Import ZArith Bool List.
Import ListNotations.
Local Open Scope Z_scope.

Definition SEC : Z := 1000000.                      (* time.c3:13 *)

(** The C library. *)
Definition is_leap (y : Z) : bool := (y mod 4 =? 0) && (negb (y mod 100 =? 0) || (y mod 400 =? 0)).
Definition lengths (y : Z) : list Z := [31; if is_leap y then 29 else 28; 31; 30; 31; 30; 31; 31; 30; 31; 30; 31].
(** The days before January 1 of a year, counted from January 1 of year 0. *)
Definition before_year (y : Z) : Z := 365 * y + (y - 1) / 4 - (y - 1) / 100 + (y - 1) / 400 + 1.
Definition EPOCH : Z := 719528.
Definition sum (l : list Z) : Z := fold_right Z.add 0 l.
Definition before_month (y m : Z) : Z := sum (firstn (Z.to_nat m) (lengths y)).
Definition timegm (year month day hour min sec : Z) : Z :=
  86400 * (before_year year + before_month year month + (day - 1) - EPOCH) + 3600 * hour + 60 * min + sec.
Fixpoint find_month (l : list Z) (m yday : Z) : Z * Z :=
  match l with
  | [] => (m, yday)
  | n :: r => if yday <? n then (m, yday) else find_month r (m + 1) (yday - n)
  end.
Record tm := Tm { tm_sec : Z; tm_min : Z; tm_hour : Z; tm_mday : Z; tm_mon : Z; tm_year : Z; tm_wday : Z; tm_yday : Z }.
Definition year_of (n : Z) : Z :=
  let y := 400 * n / 146097 in if n <? before_year y then y - 1 else if before_year (y + 1) <=? n then y + 1 else y.
Definition gmtime (t : Z) : tm :=
  let days := t / 86400 in
  let r := t mod 86400 in
  let n := days + EPOCH in
  let y := year_of n in
  let yday := n - before_year y in
  let (m, d) := find_month (lengths y) 0 yday in
  Tm (r mod 60) (r / 60 mod 60) (r / 3600) (d + 1) m (y - 1900) ((days + 4) mod 7) yday.

(** Rounding to the nearest, ties to even. *)
Definition rdiv (a b : Z) : Z :=
  let q := a / b in
  let r := a mod b in
  if 2 * r <? b then q else if b <? 2 * r then q + 1 else if Z.even q then q else q + 1.
(** (double)a for a not negative; the result is an integer. *)
Definition to_double (a : Z) : Z := if a <? 2 ^ 53 then a else let u := 2 ^ (Z.log2 a - 52) in rdiv a u * u.
(** The quotient of two positive doubles, rounded to 53 bits, and then cut to an integer by a cast.  [e] places behind the point are kept. *)
Definition div_trunc (a b : Z) : Z :=
  let l := Z.log2 a - Z.log2 b in
  let l := if (if 0 <=? l then a <? b * 2 ^ l else a * 2 ^ (- l) <? b) then l - 1 else l in
  let e := 52 - l in
  if 0 <=? e then rdiv (a * 2 ^ e) b / 2 ^ e else rdiv a (b * 2 ^ (- e)) * 2 ^ (- e).
(** time.c3:98 to_seconds, with the cast to Time_t in datetime.c3:138. *)
Definition to_seconds (t : Z) : Z := Z.sgn t * div_trunc (to_double (Z.abs t)) SEC.

(** time.c3:29-41. *)
Record datetime := DateTime { usec : Z; sec : Z; min : Z; hour : Z; day : Z; month : Z; weekday : Z; year : Z; year_day : Z; time : Z }.
(** time.c3:43-47. *)
Record tzdatetime := Tz { date_time : datetime; gmt_offset : Z }.

(** datetime.c3:135-150 set_time, 199-204 from_time. *)
Definition from_time (t : Z) : datetime :=
  let c := gmtime (to_seconds t) in
  DateTime (Z.rem t SEC) (tm_sec c) (tm_min c) (tm_hour c) (tm_mday c) (tm_mon c)
    (if tm_wday c =? 0 then 6 else tm_wday c - 1) (tm_year c + 1900) (tm_yday c) t.
(** datetime.c3:122-133 set_date, 16-21 from_date. *)
Definition from_date (y mo d h mi s us : Z) : datetime := from_time (timegm y mo d h mi s * SEC + us).
(** datetime.c3:69-85 with_gmt_offset. *)
Definition with_time (t : Z) (d : datetime) : datetime :=
  DateTime (usec d) (sec d) (min d) (hour d) (day d) (month d) (weekday d) (year d) (year_day d) t.
Definition with_gmt_offset (z : tzdatetime) (off : Z) : tzdatetime :=
  Tz (with_time (time (date_time z) - (off - gmt_offset z) * SEC) (date_time z)) off.
(** datetime.c3:94-113 to_gmt_offset. *)
Definition to_gmt_offset (z : tzdatetime) (off : Z) : tzdatetime :=
  if gmt_offset z =? off then z
  else Tz (with_time (time (date_time z)) (from_time (time (date_time z) + off * SEC))) off.
(** datetime.c3:31-34 from_date_tz, 210-213 from_time_tz. *)
Definition from_date_tz (y mo d h mi s us off : Z) : tzdatetime := with_gmt_offset (Tz (from_date y mo d h mi s us) 0) off.
Definition from_time_tz (t off : Z) : tzdatetime := to_gmt_offset (Tz (from_time t) 0) off.

(** datetime.c3:152-156 add_seconds, add_minutes, add_hours, add_days, add_weeks, with time.c3:85-89: the seconds in a unit. *)
Inductive unit_of_time := Seconds | Minutes | Hours | Days | Weeks.
Definition unit_seconds (u : unit_of_time) : Z := match u with Seconds => 1 | Minutes => 60 | Hours => 3600 | Days => 86400 | Weeks => 604800 end.
Definition add_units (d : datetime) (u : unit_of_time) (k : Z) : datetime := from_time (time d + k * (unit_seconds u * SEC)).
(** datetime.c3:158-162 add_years. *)
Definition add_years (d : datetime) (k : Z) : datetime :=
  if k =? 0 then d else from_date (year d + k) (month d) (day d) (hour d) (min d) (sec d) (usec d).
(** datetime.c3:164-187 add_months. *)
Definition add_months (d : datetime) (k : Z) : datetime :=
  if k =? 0 then d else
  let (y, m) :=
    if Z.rem k 12 =? 0 then (year d + Z.quot k 12, month d)
    else if k <? 0 then
      let m := month d + Z.rem k 12 in
      let y := year d + Z.quot k 12 in
      if m <? 0 then (y - 1, m + 12) else (y, m)
    else let m := month d + k in (year d + Z.quot m 12, Z.rem m 12) in
  from_date y m (day d) (hour d) (min d) (sec d) (usec d).
(** datetime.c3:190-197: the same for TzDateTime. *)
Definition add_units_tz (z : tzdatetime) (u : unit_of_time) (k : Z) : tzdatetime := to_gmt_offset (Tz (add_units (date_time z) u k) 0) (gmt_offset z).
Definition add_years_tz (z : tzdatetime) (k : Z) : tzdatetime := with_gmt_offset (Tz (add_years (date_time z) k) 0) (gmt_offset z).
Definition add_months_tz (z : tzdatetime) (k : Z) : tzdatetime := with_gmt_offset (Tz (add_months (date_time z) k) 0) (gmt_offset z).

(** datetime.c3:220-233 after, before, compare_to (time.c3:92-96). *)
Definition after (a b : datetime) : bool := time b <? time a.
Definition before (a b : datetime) : bool := time a <? time b.
Definition compare_to (a b : datetime) : Z := if time a =? time b then 0 else if time b <? time a then 1 else -1.
(** datetime.c3:235-245 diff_years; the call of itself has the years in order. *)
Definition diff_years (a b : datetime) : Z :=
  let diff (a b : datetime) := if year a - year b =? 0 then 0 else if year_day a <? year_day b then year a - year b - 1 else year a - year b in
  if year a - year b <? 0 then - diff b a else diff a b.
