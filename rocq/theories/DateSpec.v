(** What the calendar functions are about. *)
From Coq Require Import ZArith Bool List.
From Verif Require Import DateModel.
Import ListNotations.
Local Open Scope Z_scope.

(** The Gregorian calendar: dates are a year, a month (0-11) and a day (from 1), and have a successor. *)
Definition leap (y : Z) : Prop := (4 | y) /\ (~ (100 | y) \/ (400 | y)).
Definition length_of (y m len : Z) : Prop :=
  (In m [0; 2; 4; 6; 7; 9; 11] /\ len = 31) \/ (In m [3; 5; 8; 10] /\ len = 30) \/ (m = 1 /\ leap y /\ len = 29) \/ (m = 1 /\ ~ leap y /\ len = 28).
Definition date : Type := Z * Z * Z.
Definition valid (x : date) : Prop := let '(y, m, d) := x in exists len, length_of y m len /\ 1 <= d <= len.
Inductive next : date -> date -> Prop :=
| next_day y m d : valid (y, m, d + 1) -> next (y, m, d) (y, m, d + 1)
| next_month y m len : m < 11 -> length_of y m len -> next (y, m, len) (y, m + 1, 1)
| next_year y : next (y, 11, 31) (y + 1, 0, 1).
(** [follows k x x']: x' is the date k days after x. *)
Inductive follows : nat -> date -> date -> Prop :=
| same x : follows O x x
| later k x x' x'' : follows k x x' -> next x' x'' -> follows (S k) x x''.
(** The date n days after (before, if n is negative) January 1, 1970. *)
Definition day_of (n : Z) (x : date) : Prop :=
  valid x /\ if 0 <=? n then follows (Z.to_nat n) (1970, 0, 1) x else follows (Z.to_nat (- n)) x (1970, 0, 1).

Definition fields_date (d : datetime) : date := (year d, month d, day d).
(** The fields of [d] are the date and the time of day [t] microseconds after the start of 1970; January 1, 1970 was a Thursday. *)
Definition shows (t : Z) (d : datetime) : Prop := exists n,
  day_of n (fields_date d) /\
  t = (86400 * n + 3600 * hour d + 60 * min d + sec d) * 1000000 + usec d /\
  0 <= hour d < 24 /\ 0 <= min d < 60 /\ 0 <= sec d < 60 /\ 0 <= usec d < 1000000 /\
  weekday d = (n + 3) mod 7 /\
  exists k : nat, year_day d = Z.of_nat k /\ follows k (year d, 0, 1) (fields_date d).
(** The times the conversion is exact for: up to the year 2255, and before 1970 whole seconds from 1684 on. *)
Definition exact (t : Z) : Prop := 0 <= t < 2 ^ 53 \/ (- 2 ^ 53 < t < 0 /\ t mod 1000000 = 0).
(** A time of day. *)
Definition clock (h mi s us : Z) : Prop := 0 <= h < 24 /\ 0 <= mi < 60 /\ 0 <= s < 60 /\ 0 <= us < 1000000.

(** What a program does with a TzDateTime. *)
Inductive op := To (off : Z) | With (off : Z) | AddUnits (u : unit_of_time) (k : Z) | AddYears (k : Z) | AddMonths (k : Z).
Definition run (o : op) (z : tzdatetime) : tzdatetime :=
  match o with
  | To off => to_gmt_offset z off | With off => with_gmt_offset z off
  | AddUnits u k => add_units_tz z u k | AddYears k => add_years_tz z k | AddMonths k => add_months_tz z k
  end.
(** Whole years from b to a, a not before b: the years that have passed completely. *)
Definition before_in_year (a b : datetime) : Prop := month a < month b \/ (month a = month b /\ day a < day b).
