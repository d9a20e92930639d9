(** C169, C170: the texts of dates and times. *)
From Coq Require Import String Ascii ZArith List Bool Lia ZifyBool.
From Verif Require Import FmtSpec DateModel DateSpec DfmtModel DfmtSpec.
From Verif Require DateProofs2 DateThms DfmtProofs2.
Import ListNotations.
Local Open Scope Z_scope.
Local Open Scope list_scope.

(** C169: every format prints a date with an offset in its layout: local fields, fields in GMT, and the offset.
    Missing: fewer than six digits of microseconds, years outside of 1000 to 9999, negative offsets with minutes, UNIXDATE outside of GMT. *)
Theorem C169_layout_partial f z g : let d := date_time z in let off := gmt_offset z in
  shows (time d + off * 1000000) d -> exact (time d) -> shows (time d) g -> time g = time d -> -43200 <= off <= 50400 ->
  printed_well f d g off -> format f z = layout f d g off.
Proof. exact (DfmtProofs2.format_ok f z g). Qed.
Example C169_layout_ex : let t := 1709210096789012 in let z := from_time_tz t (-28800) in let g := from_time t in
  shows (time (date_time z) + gmt_offset z * 1000000) (date_time z) /\ exact (time (date_time z)) /\ shows t g /\ time g = time (date_time z) /\
  (forall f, f <> UNIXDATE -> printed_well f (date_time z) g (gmt_offset z)) /\
  format RFC3339ZMS z = tx "2024-02-29T04:34:56.789012-08:00" /\ format RFC850 z = tx "Thursday, 29-Feb-24 12:34:56 GMT" /\ format ANSIC z = tx "Thu Feb 29 04:34:56 2024".
Proof.
  cbv zeta. assert (X : exact 1709210096789012) by (left; lia). assert (X2 : exact (1709210096789012 - 28800000000)) by (left; lia).
  assert (Ez : from_time_tz 1709210096789012 (-28800) = Tz (DateTime 789012 56 34 4 29 1 3 2024 59 1709210096789012) (-28800)) by (vm_compute; reflexivity).
  assert (Eg : from_time 1709210096789012 = DateTime 789012 56 34 12 29 1 3 2024 59 1709210096789012) by (vm_compute; reflexivity).
  split; [apply (DateThms.C167_offset_partial (from_time_tz 1709210096789012 (-28800)) []); [left; now exists 1709210096789012, (-28800)|constructor|cbn [fold_left]; rewrite Ez; left; cbn [date_time gmt_offset time]; lia]|].
  split; [rewrite Ez; exact X|]. split; [now apply DateThms.C164_fields_partial|]. split; [rewrite Ez; reflexivity|]. split.
  - intros f Hf. rewrite Ez, Eg. unfold printed_well. cbn [date_time gmt_offset year usec]. repeat split; try lia; try (intros; lia); intros E; contradiction.
  - split; [vm_compute; reflexivity|]. split; vm_compute; reflexivity.
Qed.
(** Five microseconds read as half a second; half an hour west has a second minus; UNIXDATE calls local time GMT. *)
Theorem C169_layout_refuted :
  (let z := from_time_tz 1709210096000005 0 in format RFC3339MS z = tx "2024-02-29T12:34:56.5Z" /\ layout RFC3339MS (date_time z) (date_time z) 0 = tx "2024-02-29T12:34:56.000005Z") /\
  (let z := from_time_tz 1709210096000000 (-12600) in format RFC3339Z z = tx "2024-02-29T09:04:56-03:-30" /\ format RFC1123Z z = tx "Thu, 29 Feb 2024 09:04:56 -03-30") /\
  (let z := from_time_tz 1709210096000000 3600 in format UNIXDATE z = tx "Thu Feb 29 13:34:56 GMT 2024" /\ layout UNIXDATE (date_time z) (from_time 1709210096000000) 3600 = tx "Thu Feb 29 12:34:56 GMT 2024").
Proof. cbv zeta. repeat match goal with |- _ /\ _ => split end; vm_compute; reflexivity. Qed.

(** C170: the date and time texts can be told apart: two values print the same text in RFC3339Z only if date, time of day to the second and offset
    to the minute are the same, and in DATETIME only if date and time of day are.  Missing: the other formats, and what C169 leaves out. *)
Theorem C170_distinct_partial f z g z' g' : let d := date_time z in let off := gmt_offset z in let d' := date_time z' in let off' := gmt_offset z' in
  f = RFC3339Z \/ f = DATETIME ->
  shows (time d + off * 1000000) d -> exact (time d) -> shows (time d) g -> time g = time d -> -43200 <= off <= 50400 -> printed_well f d g off ->
  shows (time d' + off' * 1000000) d' -> exact (time d') -> shows (time d') g' -> time g' = time d' -> -43200 <= off' <= 50400 -> printed_well f d' g' off' ->
  format f z = format f z' ->
  fields_date d = fields_date d' /\ hour d = hour d' /\ min d = min d' /\ sec d = sec d' /\ (f = RFC3339Z -> off mod 60 = 0 -> off' mod 60 = 0 -> off = off').
Proof.
  cbv zeta. intros Hf H X Hg T R P H' X' Hg' T' R' P' E.
  rewrite (C169_layout_partial f z g H X Hg T R P), (C169_layout_partial f z' g' H' X' Hg' T' R' P') in E.
  pose proof (DfmtProofs2.shows_fields _ _ H) as (F1 & F2 & F3 & F4 & F5 & F6 & F7). pose proof (DfmtProofs2.shows_fields _ _ H') as (F1' & F2' & F3' & F4' & F5' & F6' & F7').
  destruct P as (Y & _ & _ & _ & Z1 & _), P' as (Y' & _ & _ & _ & Z1' & _). unfold fields_date.
  set (d := date_time z) in *. set (d' := date_time z') in *. set (off := gmt_offset z) in *. set (off' := gmt_offset z') in *. clearbody d d' off off'.
  assert (Y4 : forall y, 1000 <= y <= 9999 -> 0 <= y / 100 < 100 /\ 0 <= y mod 100 < 100 /\ y = 100 * (y / 100) + y mod 100) by (clear; intros; Z.to_euclidean_division_equations; lia).
  destruct (Y4 _ Y) as (A1 & A2 & A3), (Y4 _ Y') as (B1 & B2 & B3). clear Y4.
  assert (S : year d = year d' /\ month d = month d' /\ day d = day d' /\ hour d = hour d' /\ min d = min d' /\ sec d = sec d' /\ (f = RFC3339Z -> zone ":" off = zone ":" off')).
  { assert (E2 : exists r r', iso_date d ++ r = iso_date d' ++ r' /\ exists c t t', r = c ++ clock_text d ++ t /\ r' = c ++ clock_text d' ++ t' /\ (f = RFC3339Z -> t = zone ":" off /\ t' = zone ":" off')).
    { destruct Hf as [-> | ->]; unfold layout in E; do 2 eexists; (split; [exact E|]).
      - exists (tx "T"), (zone ":" off), (zone ":" off'). tauto.
      - exists (tx " "), [], []. rewrite !app_nil_r. split; [reflexivity|]. split; [reflexivity|discriminate]. }
    clear E. destruct E2 as (r & r' & E & c & t & t' & -> & -> & Et). unfold iso_date, clock_text, four in E. rewrite <- !app_assoc in E.
    apply DfmtProofs2.two_inj in E; [|assumption|assumption]. destruct E as [E1 E]. apply DfmtProofs2.two_inj in E; [|assumption|assumption]. destruct E as [E2 E]. apply app_inv_head in E.
    apply DfmtProofs2.two_inj in E; [|clear - F1; lia|clear - F1'; lia]. destruct E as [E3 E]. apply app_inv_head in E.
    apply DfmtProofs2.two_inj in E; [|clear - F2; lia|clear - F2'; lia]. destruct E as [E4 E]. apply app_inv_head in E.
    apply DfmtProofs2.two_inj in E; [|clear - F4; lia|clear - F4'; lia]. destruct E as [E5 E]. apply app_inv_head in E.
    apply DfmtProofs2.two_inj in E; [|clear - F5; lia|clear - F5'; lia]. destruct E as [E6 E]. apply app_inv_head in E.
    apply DfmtProofs2.two_inj in E; [|clear - F6; lia|clear - F6'; lia]. destruct E as [E7 E].
    split; [rewrite A3, B3, E1, E2; reflexivity|]. split; [clear - E3; lia|]. repeat (split; [assumption|]). intros Ef. destruct (Et Ef) as [-> ->]. exact E. }
  destruct S as (S1 & S2 & S3 & S4 & S5 & S6 & S7). rewrite S1, S2, S3. repeat (split; [first [reflexivity|assumption]|]).
  intros Ef M M'. apply DfmtProofs2.zone_inj; try assumption. now apply S7.
Qed.
(** Two values that print the same and differ by a microsecond; they meet the hypotheses as in C169_layout_ex. *)
Example C170_distinct_ex : let z := from_time_tz 1709210096789012 (-28800) in let z' := from_time_tz 1709210096789013 (-28800) in
  format RFC3339Z z = format RFC3339Z z' /\ time (date_time z) <> time (date_time z') /\ exact (time (date_time z')) /\
  shows (time (date_time z') + gmt_offset z' * 1000000) (date_time z') /\ shows (time (date_time z')) (from_time 1709210096789013).
Proof.
  cbv zeta. assert (Ez : from_time_tz 1709210096789013 (-28800) = Tz (DateTime 789013 56 34 4 29 1 3 2024 59 1709210096789013) (-28800)) by (vm_compute; reflexivity).
  split; [vm_compute; reflexivity|]. split; [vm_compute; discriminate|]. split; [rewrite Ez; left; cbn [date_time time]; lia|]. split.
  - apply (DateThms.C167_offset_partial (from_time_tz 1709210096789013 (-28800)) []); [left; now exists 1709210096789013, (-28800)|constructor|cbn [fold_left]; rewrite Ez; left; cbn [date_time gmt_offset time]; lia].
  - rewrite Ez. apply DateThms.C164_fields_partial. left. lia.
Qed.
Print Assumptions C169_layout_partial. Print Assumptions C169_layout_refuted. Print Assumptions C170_distinct_partial.
