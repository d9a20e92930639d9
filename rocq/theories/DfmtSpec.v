(** What the formats of dates look like. *)
From Coq Require Import String Ascii ZArith List Bool.
From Verif Require Import FmtSpec DateModel DateSpec DfmtModel.
Import ListNotations.
Local Open Scope Z_scope.

(** Decimal digits, two, four and six. *)
Definition two (n : Z) : list Z := [48 + n / 10; 48 + n mod 10].
Definition four (n : Z) : list Z := two (n / 100) ++ two (n mod 100).
Definition six (n : Z) : list Z := two (n / 10000) ++ four (n mod 10000).
Definition spaced (n : Z) : list Z := if n <? 10 then [32; 48 + n] else two n.
Definition day_names := ["Monday"; "Tuesday"; "Wednesday"; "Thursday"; "Friday"; "Saturday"; "Sunday"]%string.
Definition month_names := ["January"; "February"; "March"; "April"; "May"; "June"; "July"; "August"; "September"; "October"; "November"; "December"]%string.
Definition name (l : list string) (i : Z) : list Z := tx (nth (Z.to_nat i) l ""%string).
Definition abbrev (l : list string) (i : Z) : list Z := firstn 3 (name l i).
(** An offset from GMT in hours and minutes; "-0000" is how RFC 2822 writes that the offset is not known. *)
Definition zone (colon : string) (off : Z) : list Z :=
  tx (if 0 <? off then "+" else "-") ++ two (Z.abs off / 3600) ++ tx colon ++ two (Z.abs off mod 3600 / 60).
Definition clock_text (d : datetime) : list Z := two (hour d) ++ tx ":" ++ two (min d) ++ tx ":" ++ two (sec d).
Definition iso_date (d : datetime) : list Z := four (year d) ++ tx "-" ++ two (month d + 1) ++ tx "-" ++ two (day d).
(** The layouts; [d] is the local date and time, [g] the same in GMT (comments at format.c3:6-20). *)
Definition layout (f : date_format) (d g : datetime) (off : Z) : list Z :=
  match f with
  | ANSIC => abbrev day_names (weekday d) ++ tx " " ++ abbrev month_names (month d) ++ tx " " ++ spaced (day d) ++ tx " " ++ clock_text d ++ tx " " ++ four (year d)
  | UNIXDATE => abbrev day_names (weekday g) ++ tx " " ++ abbrev month_names (month g) ++ tx " " ++ spaced (day g) ++ tx " " ++ clock_text g ++ tx " GMT " ++ four (year g)
  | RUBYDATE => abbrev day_names (weekday d) ++ tx " " ++ abbrev month_names (month d) ++ tx " " ++ spaced (day d) ++ tx " " ++ clock_text d ++ tx " " ++ zone "" off ++ tx " " ++ four (year d)
  | RFC822 => two (day g) ++ tx " " ++ abbrev month_names (month g) ++ tx " " ++ two (year g mod 100) ++ tx " " ++ two (hour g) ++ tx ":" ++ two (min g) ++ tx " GMT"
  | RFC822Z => two (day d) ++ tx " " ++ abbrev month_names (month d) ++ tx " " ++ two (year d mod 100) ++ tx " " ++ two (hour d) ++ tx ":" ++ two (min d) ++ tx " " ++ zone "" off
  | RFC850 => name day_names (weekday g) ++ tx ", " ++ two (day g) ++ tx "-" ++ abbrev month_names (month g) ++ tx "-" ++ two (year g mod 100) ++ tx " " ++ clock_text g ++ tx " GMT"
  | RFC1123 => abbrev day_names (weekday g) ++ tx ", " ++ two (day g) ++ tx " " ++ abbrev month_names (month g) ++ tx " " ++ four (year g) ++ tx " " ++ clock_text g ++ tx " GMT"
  | RFC1123Z => abbrev day_names (weekday d) ++ tx ", " ++ two (day d) ++ tx " " ++ abbrev month_names (month d) ++ tx " " ++ four (year d) ++ tx " " ++ clock_text d ++ tx " " ++ zone "" off
  | RFC3339 => iso_date g ++ tx "T" ++ clock_text g ++ tx "Z"
  | RFC3339Z => iso_date d ++ tx "T" ++ clock_text d ++ zone ":" off
  | RFC3339MS => iso_date g ++ tx "T" ++ clock_text g ++ tx "." ++ six (usec g) ++ tx "Z"
  | RFC3339ZMS => iso_date d ++ tx "T" ++ clock_text d ++ tx "." ++ six (usec d) ++ zone ":" off
  | DATETIME => iso_date d ++ tx " " ++ clock_text d
  | DATEONLY => iso_date d
  | TIMEONLY => clock_text d
  end.
(** The formats that give the offset in numbers. *)
Definition zoned (f : date_format) : bool := match f with RUBYDATE | RFC822Z | RFC1123Z | RFC3339Z | RFC3339ZMS => true | _ => false end.
(** What the formats need: years of four digits, six digits of microseconds, offsets whose minutes are not negative, and GMT for UNIXDATE. *)
Definition printed_well (f : date_format) (d g : datetime) (off : Z) : Prop :=
  1000 <= year d <= 9999 /\ 1000 <= year g <= 9999 /\
  (f = RFC3339MS -> 100000 <= usec g) /\ (f = RFC3339ZMS -> 100000 <= usec d) /\
  (zoned f = true -> 0 <= off \/ off mod 3600 = 0) /\ (f = UNIXDATE -> off = 0).
