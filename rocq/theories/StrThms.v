(** C97-C100: the String functions. *)
From Coq Require Import String Ascii ZArith List Bool Lia ZifyBool.
From Verif Require Import Mach StrModel StrSpec StrProofs StrNum.
Import ListNotations.
Open Scope Z_scope.

(** Texts for the examples. *)
Definition tx (s : string) : list Z := map (fun c => Z.of_nat (nat_of_ascii c)) (list_ascii_of_string s).

(** C97: searching answers the first / the last place where the text stands, or none if there is none. *)
Theorem C97_first s sub : sub <> [] -> exists r, index_of s sub = Ok r /\ first_index (occurs_at sub s) r.
Proof. apply index_of_ok. Qed.
Theorem C97_last s sub : sub <> [] -> exists r, rindex_of s sub = Ok r /\ last_index (occurs_at sub s) r.
Proof. apply rindex_of_ok. Qed.
Theorem C97_contains s sub : sub <> [] -> exists b, contains s sub = Ok b /\ (b = true <-> exists i, occurs_at sub s i).
Proof.
  intros H. destruct (index_of_ok s sub H) as (r & E & Hr). unfold contains. rewrite E. cbn [bind]. eexists. split; [reflexivity|].
  destruct r as [i|]; [destruct Hr as [Hr _]; split; eauto|]. split; [discriminate|]. intros [i Hi]. destruct (Hr i Hi).
Qed.
(** One of several bytes, from the start, from an index on, and a byte from the end. *)
Theorem C97_bytes s cs c start : 0 <= start ->
  (exists r, index_of_chars s cs = Ok r /\ first_index (fun i => exists x, byte_at s i x /\ In x cs) r) /\
  (exists r, index_of_char s c = Ok r /\ first_index (fun i => byte_at s i c) r) /\
  (exists r, index_of_char_from s c start = Ok r /\ first_index (fun i => start <= i /\ byte_at s i c) r) /\
  (exists r, rindex_of_char s c = Ok r /\ last_index (fun i => byte_at s i c) r).
Proof.
  assert (Hext : forall P Q r, (forall i, P i <-> Q i) -> first_index P r -> first_index Q r).
  { intros P Q [i|] H; cbn; [intros [H1 H2]; split; [now apply H|intros j Hj; apply H2, H, Hj]|intros H1 j Hj; exact (H1 j (proj2 (H j) Hj))]. }
  assert (H0 : forall cs, exists r, index_chars s cs (length s) 0 = Ok r /\ first_index (fun i => exists x, byte_at s i x /\ In x cs) r).
  { intros cs0. destruct (index_chars_ok s cs0 0 (length s) 0) as (r & E & Hr); [lia|lia|reflexivity|intros; lia|]. exists r. split; [exact E|].
    revert Hr. apply Hext. intros i. split; [tauto|]. intros (x & Hx & Hc). split; [apply byte_bound in Hx; lia|eauto]. }
  split; [apply H0|]. split; [|split].
  - destruct (H0 [c]) as (r & E & Hr). exists r. split; [exact E|]. revert Hr. apply Hext. intros i. split; [intros (x & Hx & [<-|[]]); exact Hx|intros Hx; exists c; split; [exact Hx|now left]].
  - unfold index_of_char_from. intros. destruct (zlen s <=? start) eqn:El.
    + exists None. split; [reflexivity|]. intros j [Hj Hb]. apply byte_bound in Hb. lia.
    + destruct (index_chars_ok s [c] start (Z.to_nat (zlen s - start)) start) as (r & E & Hr); [lia|lia|lia|intros; lia|]. exists r. split; [exact E|].
      revert Hr. apply Hext. intros i. split; [intros (Hi & x & Hx & [<-|[]]); auto|intros (Hi & Hx); split; [exact Hi|exists c; split; [exact Hx|now left]]].
  - apply rindex_char_ok; [reflexivity|]. intros j Hj. apply byte_bound in Hj. unfold zlen in Hj. lia.
Qed.
(** Prefixes and suffixes. *)
Theorem C97_affixes s p :
  (exists b, starts_with s p = Ok b /\ (b = true <-> exists r, s = p ++ r)) /\
  (exists b, ends_with s p = Ok b /\ (b = true <-> exists r, s = r ++ p)) /\
  (exists t, strip s p = Ok t /\ (s = p ++ t \/ (~ (exists r, s = p ++ r)) /\ t = s)) /\
  (exists t, strip_end s p = Ok t /\ (s = t ++ p \/ (~ (exists r, s = r ++ p)) /\ t = s)).
Proof. split; [apply starts_with_ok|]. split; [apply ends_with_ok|]. split; [apply strip_ok|apply strip_end_ok]. Qed.
Example C97_example : index_of (tx "aababab") (tx "abab") = Ok (Some 1) /\ rindex_of (tx "aababab") (tx "abab") = Ok (Some 3) /\ index_of (tx "abc") (tx "cb") = Ok None
  /\ index_of_char_from (tx "abcabc") 97 1 = Ok (Some 3) /\ strip (tx "foobar") (tx "foo") = Ok (tx "bar").
Proof. repeat match goal with |- _ /\ _ => split end; reflexivity. Qed.

(** C98: splitting cuts the text at the leftmost delimiters, up to the limit, without the empty pieces if asked; and never overruns the array. *)
Theorem C98_split s d max skip : d <> [] -> len s < 2 ^ 63 -> 0 <= max < 2 ^ 64 ->
  exists ps, Cut d s ps /\ (forall qs, Cut d s qs -> qs = ps) /\
    split s d max skip = Ok (if max =? 0 then kept skip ps else limited d skip (Z.to_nat max) ps).
Proof.
  intros Hd Hs Hm. destruct (split_ok s d max skip Hd Hs Hm) as (ps & Hc & E). exists ps. split; [exact Hc|]. split; [intros; eapply cut_unique; eauto|].
  rewrite E. unfold left_over. now rewrite Z.sub_0_r.
Qed.
(** Joining the pieces again gives the text, and there are at most as many as allowed. *)
Theorem C98_join s d max : d <> [] -> len s < 2 ^ 63 -> 0 <= max < 2 ^ 64 ->
  exists l, split s d max false = Ok l /\ join l d = s /\ l <> [] /\ (max = 0 \/ len (map (fun _ => 0) l) <= max).
Proof.
  intros Hd Hs Hm. destruct (split_ok s d max false Hd Hs Hm) as (ps & Hc & ->). eexists. split; [reflexivity|]. rewrite join_glue.
  unfold left_over. pose proof (cut_nonempty _ _ _ Hc) as Hne. rewrite Z.sub_0_r. destruct (max =? 0) eqn:E.
  - cbn [kept]. split; [eapply cut_glue; eauto|]. split; [exact Hne|lia].
  - destruct (limited_glue d (Z.to_nat max) ps Hne) as (H1 & H2 & H3); [lia|]. rewrite H1. split; [eapply cut_glue; eauto|]. split; [exact H2|]. right. unfold len. rewrite map_length. lia.
Qed.
(** Joining is putting the joiner between each two. *)
Theorem C98_join_glue ss d : join ss d = glue d ss.
Proof. apply join_glue. Qed.
(** Splitting into a buffer gives the same pieces, or fails exactly when they do not fit. *)
Theorem C98_buffer s d cap max skip : d <> [] -> len s < 2 ^ 63 -> 0 <= max < 2 ^ 64 -> 0 <= cap ->
  exists l, split s d max skip = Ok l /\ split_to_buffer s d cap max skip = Ok (if len (map (fun _ => 0) l) <=? cap then Some l else None).
Proof.
  intros Hd Hs Hm Hcap. destruct (split_ok s d max skip Hd Hs Hm) as (ps & Hc & ->). eexists. split; [reflexivity|].
  unfold split_to_buffer, len in *. rewrite (split_buffer_loop_ok d max skip cap Hd Hm _ _ ps); auto; try lia; try (unfold zlen; lia).
  rewrite map_length. cbn [app]. replace (0 + zlen (left_over d skip max 0 ps)) with (Z.of_nat (Datatypes.length (left_over d skip max 0 ps))) by (unfold zlen; lia). reflexivity.
Qed.
(** The splitter visits the pieces one by one, all but a last empty one; the tokenizer visits the pieces that are not empty. *)
Theorem C98_splitter_partial s d : d <> [] ->
  exists ps, Cut d s ps /\ splitter_all (length s) s d false 0 = Ok (drop_last_empty ps) /\ splitter_all (length s) s d true 0 = Ok (kept true ps).
Proof.
  intros Hd. destruct (cut_total d Hd s) as [ps Hc]. exists ps. split; [exact Hc|].
  split; [apply (splitter_all_ok d false Hd _ s [] s ps)|apply (splitter_all_ok d true Hd _ s [] s ps)]; auto.
Qed.
(** The declared guarantee that the result of split is never empty fails when empty pieces are skipped, and the splitter does not visit every piece. *)
Theorem C98_nonempty_refuted : exists s d, d <> [] /\ split s d 0 true = Ok [] /\
  split s d 0 false = Ok [[]; []] /\ splitter_all (length s) s d false 0 = Ok [[]].
Proof. exists [44], [44]. split; [discriminate|]. repeat match goal with |- _ /\ _ => split end; reflexivity. Qed.
Example C98_example : split (tx "a||bc|d") (tx "|") 0 false = Ok [tx "a"; []; tx "bc"; tx "d"] /\ split (tx "a||bc|d") (tx "|") 2 true = Ok [tx "a"; tx "|bc|d"]
  /\ Cut (tx "|") (tx "a|b") [tx "a"; tx "b"] /\ split_to_buffer (tx "a|b|c") (tx "|") 2 0 false = Ok None /\ join [tx "a"; tx "b"; tx "c"] (tx ", ") = tx "a, b, c".
Proof.
  repeat match goal with |- _ /\ _ => split end; try reflexivity.
  destruct (C98_split (tx "a|b") (tx "|") 0 false) as (ps & Hc & _ & E); [discriminate|reflexivity|lia|].
  assert (E' : Ok ps = Ok [tx "a"; tx "b"]) by (symmetry; etransitivity; [|exact E]; reflexivity). injection E' as ->. exact Hc.
Qed.

(** C99: trimming removes exactly the longest start and end made of bytes of the set. *)
Theorem C99_trim s set :
  (exists t, trim_left s set = Ok t /\ trimmed_left set s t) /\ (exists t, trim_right s set = Ok t /\ trimmed_right set s t) /\
  (exists t a b, trim s set = Ok t /\ s = a ++ t ++ b /\ Forall (fun c => In c set) a /\ Forall (fun c => In c set) b /\
     (forall c r, t = c :: r -> ~ In c set) /\ (forall r c, t = r ++ [c] -> ~ In c set)).
Proof.
  split; [apply trim_left_ok|]. split; [apply trim_right_ok|]. destruct (trim_ok s set) as (t & E & m & (a & -> & Ha & Hm) & (b & -> & Hb & Ht)).
  exists t, a, b. repeat match goal with |- _ /\ _ => split end; auto. intros c r ->. eapply Hm; reflexivity.
Qed.
(** Case conversion changes the letters, and nothing else; both conversions forget the same. *)
Theorem C99_case s i c : byte_at s i c ->
  byte_at (to_lower s) i (if (65 <=? c) && (c <=? 90) then c + 32 else c) /\ byte_at (to_upper s) i (if (97 <=? c) && (c <=? 122) then c - 32 else c) /\
  len (to_lower s) = len s /\ len (to_upper s) = len s /\
  to_lower (to_upper s) = to_lower s /\ to_upper (to_lower s) = to_upper s /\ to_lower (to_lower s) = to_lower s /\ to_upper (to_upper s) = to_upper s.
Proof.
  intros (a & b & -> & H). unfold to_lower, to_upper, len in *. rewrite !map_length, !map_map.
  repeat match goal with |- _ /\ _ => split end; auto; try (apply map_ext; intros x; repeat match goal with |- context [if ?b then _ else _] => destruct b eqn:? end; lia).
  - exists (map (fun c => if (65 <=? c) && (c <? 91) then c + 32 else c) a), (map (fun c => if (65 <=? c) && (c <? 91) then c + 32 else c) b). split; [|unfold len; rewrite map_length; exact H]. rewrite map_app. cbn [map]. replace (c <? 91) with (c <=? 90) by lia. reflexivity.
  - exists (map (fun c => if (97 <=? c) && (c <? 123) then c - 32 else c) a), (map (fun c => if (97 <=? c) && (c <? 123) then c - 32 else c) b). split; [|unfold len; rewrite map_length; exact H]. rewrite map_app. cbn [map]. replace (c <? 123) with (c <=? 122) by lia. reflexivity.
Qed.
Example C99_example : trim (tx "  a b ") (tx " ") = Ok (tx "a b") /\ trim (tx "    ") (tx " ") = Ok [] /\ to_lower (tx "Az[1") = tx "az[1".
Proof. repeat match goal with |- _ /\ _ => split end; reflexivity. Qed.

(** C100: a number that fits the type is read exactly; one that does not is refused or read modulo the width. *)
Theorem C100_numbers_partial sgn bits base s w : base_ok base -> 1 <= bits -> Forall (fun c => 0 <= c < 256) s -> (sgn = true \/ ~ In 45 s) ->
  Reads digit_is base s w ->
  (in_type sgn bits w -> to_integer sgn bits base s = Val w) /\
  (to_integer sgn bits base s = IntegerOverflow \/ exists v, to_integer sgn bits base s = Val v /\ in_type sgn bits v /\ v mod 2 ^ bits = w mod 2 ^ bits).
Proof.
  intros Hb Hbits Hs Hsg Hr. split; [intros; now apply read_exact|].
  destruct (read_wrapped sgn bits base s w) as [->| ->]; auto. right. eexists. split; [reflexivity|]. split; [now apply wrap_in|now apply wrap_mod].
Qed.
(** Only numbers are read, but for the six characters after '9' in base 16. *)
Theorem C100_accepted_partial sgn bits base s v : base_ok base -> 1 <= bits -> Forall (fun c => 0 <= c < 256) s -> to_integer sgn bits base s = Val v ->
  in_type sgn bits v /\ exists w, Reads lax_digit_is base s w /\ v mod 2 ^ bits = w mod 2 ^ bits.
Proof.
  intros Hb Hbits Hs H. destruct (read_accept _ _ _ _ _ Hb Hbits Hs H) as (w & Hw & ->). split; [now apply wrap_in|]. exists w. split; [exact Hw|now apply wrap_mod].
Qed.
(** The two errors about the start of the text. *)
Theorem C100_errors sgn bits base s :
  (to_integer sgn bits base s = EmptyString <-> Forall blank s) /\
  (to_integer sgn bits base s = NegativeValue <-> sgn = false /\ exists bl r, s = bl ++ 45 :: r /\ Forall blank bl).
Proof. split; [apply read_empty|apply read_negative]. Qed.
(** A text that is no number is read as one, and numbers out of range are read as other numbers. *)
Theorem C100_refuted : to_integer true 32 10 (tx "0x:") = Val 10 /\ (forall w, ~ Reads digit_is 10 (tx "0x:") w) /\
  to_integer true 8 10 (tx "300") = Val 44 /\ to_integer false 32 10 (tx "5000000000") = Val 705032704.
Proof.
  split; [reflexivity|]. split; [|split; reflexivity].
  intros w (bl & sg & neg & pre & base' & ds & n & E & _ & _ & Hp & Hd & Hn & _).
  destruct (exists_last Hd) as (u & x & ->). apply (f_equal (@rev Z)) in E. rewrite !app_assoc in E. rewrite rev_app_distr in E. injection E as Ex _. subst x.
  inversion Hn as [E0|ds0 n0 c v Hn0 Hc E0 E1]; [destruct u; discriminate|]. apply app_inj_tail in E0 as [_ ->].
  destruct Hc as [_ Hc]. change (nat_of_ascii _) with 58%nat in Hc. cbn in Hc. lia.
Qed.
Example C100_example : to_integer true 8 10 (tx " -128") = Val (-128) /\ to_integer false 64 10 (tx "0xFF") = Val 255 /\ to_integer true 32 10 (tx "12a") = MalformedInteger
  /\ Reads digit_is 10 (tx "-12") (-12).
Proof.
  repeat match goal with |- _ /\ _ => split end; try reflexivity.
  exists [], [45], true, [], 10, [49; 50], 12. repeat match goal with |- _ /\ _ => split end; try constructor; try discriminate; try reflexivity.
  apply (Number_snoc (digit_is 10) 10 [49] 1 50 2); [apply (Number_snoc (digit_is 10) 10 [] 0 49 1); [constructor|]|]; unfold digit_is; lia.
Qed.
Print Assumptions C97_first. Print Assumptions C97_last. Print Assumptions C97_contains. Print Assumptions C97_bytes. Print Assumptions C97_affixes.
Print Assumptions C98_split. Print Assumptions C98_join. Print Assumptions C98_join_glue. Print Assumptions C98_buffer. Print Assumptions C98_splitter_partial. Print Assumptions C98_nonempty_refuted.
Print Assumptions C99_trim. Print Assumptions C99_case.
Print Assumptions C100_numbers_partial. Print Assumptions C100_accepted_partial. Print Assumptions C100_errors. Print Assumptions C100_refuted.
