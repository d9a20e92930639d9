(** Model of lib/std/time/format.c3: the formats of dates and times, over the model of printf. *)
From Coq Require Import String Ascii ZArith List Bool.
From Verif Require Import FmtModel DateModel.
Import ListNotations.
Local Open Scope Z_scope.

(** format.c3:4-21. *)
Inductive date_format := ANSIC | UNIXDATE | RUBYDATE | RFC822 | RFC822Z | RFC850 | RFC1123 | RFC1123Z | RFC3339 | RFC3339Z | RFC3339MS | RFC3339ZMS | DATETIME | DATEONLY | TIMEONLY.
(** time.c3:49-58, 60-74: the names of weekdays and months; the abbreviations are their first three letters there. *)
Definition weekday_names : list (list Z) := map lit ["Monday"; "Tuesday"; "Wednesday"; "Thursday"; "Friday"; "Saturday"; "Sunday"]%string.
Definition weekday_abbrevs : list (list Z) := map lit ["Mon"; "Tue"; "Wed"; "Thu"; "Fri"; "Sat"; "Sun"]%string.
Definition month_abbrevs : list (list Z) := map lit ["Jan"; "Feb"; "Mar"; "Apr"; "May"; "Jun"; "Jul"; "Aug"; "Sep"; "Oct"; "Nov"; "Dec"]%string.
Definition of_names (l : list (list Z)) (i : Z) : arg := AStr (nth (Z.to_nat i) l []).
Definition text (s : string) (args : list arg) : list Z := fst (printf (lit s) args).
(** format.c3:76-90 temp_numeric_tzsuffix, temp_numeric_tzsuffix_colon. *)
Definition tzsuffix (off : Z) : list Z :=
  if off =? 0 then lit "-0000" else text "%+03d%02d" [AInt true 32 (Z.quot off 3600); AInt true 32 (Z.quot (Z.rem off 3600) 60)].
Definition tzsuffix_colon (off : Z) : list Z :=
  if off =? 0 then lit "-00:00" else text "%+03d:%02d" [AInt true 32 (Z.quot off 3600); AInt true 32 (Z.quot (Z.rem off 3600) 60)].
(** format.c3:23-63 format. *)
Definition format (f : date_format) (z : tzdatetime) : list Z :=
  let wa z := of_names weekday_abbrevs (weekday (date_time z)) in
  let wn z := of_names weekday_names (weekday (date_time z)) in
  let ma z := of_names month_abbrevs (month (date_time z)) in
  let d z := AInt false 8 (day (date_time z)) in
  let h z := AInt false 8 (hour (date_time z)) in
  let mi z := AInt false 8 (min (date_time z)) in
  let s z := AInt false 8 (sec (date_time z)) in
  let y z := AInt true 32 (year (date_time z)) in
  let yy z := AInt true 32 (Z.rem (year (date_time z)) 100) in
  let mo z := AInt true 32 (month (date_time z) + 1) in
  let us z := AInt true 32 (usec (date_time z)) in
  let tz z := AStr (tzsuffix (gmt_offset z)) in
  let tzc z := AStr (tzsuffix_colon (gmt_offset z)) in
  let g := to_gmt_offset z 0 in
  match f with
  | ANSIC => text "%s %s %2d %02d:%02d:%02d %04d" [wa z; ma z; d z; h z; mi z; s z; y z]
  | UNIXDATE => text "%s %s %2d %02d:%02d:%02d GMT %04d" [wa z; ma z; d z; h z; mi z; s z; y z]
  | RUBYDATE => text "%s %s %2d %02d:%02d:%02d %s %04d" [wa z; ma z; d z; h z; mi z; s z; tz z; y z]
  | RFC822 => text "%02d %s %02d %02d:%02d GMT" [d g; ma g; yy g; h g; mi g]
  | RFC822Z => text "%02d %s %02d %02d:%02d %s" [d z; ma z; yy z; h z; mi z; tz z]
  | RFC850 => text "%s, %02d-%s-%02d %02d:%02d:%02d GMT" [wn g; d g; ma g; yy g; h g; mi g; s g]
  | RFC1123 => text "%s, %02d %s %d %02d:%02d:%02d GMT" [wa g; d g; ma g; y g; h g; mi g; s g]
  | RFC1123Z => text "%s, %02d %s %d %02d:%02d:%02d %s" [wa z; d z; ma z; y z; h z; mi z; s z; tz z]
  | RFC3339 => text "%04d-%02d-%02dT%02d:%02d:%02dZ" [y g; mo g; d g; h g; mi g; s g]
  | RFC3339Z => text "%04d-%02d-%02dT%02d:%02d:%02d%s" [y z; mo z; d z; h z; mi z; s z; tzc z]
  | RFC3339MS => text "%04d-%02d-%02dT%02d:%02d:%02d.%dZ" [y g; mo g; d g; h g; mi g; s g; us g]
  | RFC3339ZMS => text "%04d-%02d-%02dT%02d:%02d:%02d.%d%s" [y z; mo z; d z; h z; mi z; s z; us z; tzc z]
  | DATETIME => text "%04d-%02d-%02d %02d:%02d:%02d" [y z; mo z; d z; h z; mi z; s z]
  | DATEONLY => text "%04d-%02d-%02d" [y z; mo z; d z]
  | TIMEONLY => text "%02d:%02d:%02d" [h z; mi z; s z]
  end.
