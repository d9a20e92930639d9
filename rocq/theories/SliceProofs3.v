(** Lemmas about assignment to slices, constants, indices, shifts and ordinals. *)
From Coq Require Import ZArith Bool List Lia ZifyBool.
From Verif Require Import SliceModel SliceSpec SliceProofs SliceProofs2.
Import ListNotations.
Local Open Scope Z_scope.

Lemma values_range safe sg e n x s t b : 0 <= n < 2 ^ 63 -> slice_values safe sg e n x = Ends s t b -> 0 <= s < 2 ^ 64 /\ 0 <= t < 2 ^ 64.
Proof.
  intros N H. unfold slice_values in H. cbv zeta in H.
  pose proof word_range as WR.
  repeat match type of H with
  | (if ?b then EPanic else _) = _ => destruct b; [discriminate H |]
  | match shp x with _ => _ end = _ => destruct (shp x)
  | match r_stop x with _ => _ end = _ => destruct (r_stop x)
  | (if ?b then EAssertion else _) = _ => destruct b; [discriminate H |]
  end; injection H as <- <- <-; split; repeat match goal with |- context [if ?b then _ else _] => destruct b end; auto; lia.
Qed.
Lemma values_inclusive sg e n x s t : no_length e = false -> slice_values true sg e n x = Ends s t false ->
  gt ((match shp x with ConstRange => true | _ => false end) || sg) s t = false /\ ge ((match shp x with ConstRange => true | _ => false end) || sg) t n = false.
Proof.
  intros E H. unfold slice_values in H. cbv zeta in H. rewrite E in H. cbn [andb negb] in H.
  repeat match type of H with
  | (if _ && negb true then _ else _) = _ => cbn [negb] in H
  | (if ?b then EPanic else _) = _ => let Q := fresh "Q" in destruct b eqn:Q; [discriminate H |]
  | match shp x with _ => _ end = _ => destruct (shp x)
  | match r_stop x with _ => _ end = _ => destruct (r_stop x)
  | (if ?b then EAssertion else _) = _ => let Q := fresh "Q" in destruct b eqn:Q; [discriminate H |]
  end; try discriminate H; injection H; intros; subst; try (match goal with L : r_len x = false |- _ => rewrite L in * end); cbn [negb andb] in *; try discriminate; auto.
Qed.

Lemma offsets_next a k : 0 < k -> offsets a k = a :: offsets (a + 1) (k - 1).
Proof.
  intros K. unfold offsets. replace (Z.to_nat k) with (S (Z.to_nat (k - 1))) by lia. cbn [seq map]. f_equal; [lia |].
  rewrite <- seq_shift, map_map. apply map_ext. intros; lia.
Qed.
Lemma assign_loop_spec sg (ex : bool) fuel : forall i k t, 0 <= i -> 0 <= k -> i + k < 2 ^ 63 -> t = (if ex then i + k else i + k - 1) -> 0 <= t -> k < Z.of_nat fuel ->
  assign_loop fuel sg ex i t = Offsets (offsets i k).
Proof.
  induction fuel as [| fuel IH]; intros i k t I K B T T0 F; [lia |]. cbn [assign_loop]. unfold gt, ge.
  rewrite (ival_small sg t) by (destruct ex; lia). rewrite (ival_small sg i) by lia.
  destruct (Z.eq_dec k 0) as [-> | K1].
  - destruct (if ex then i <? t else i <=? t) eqn:Q; [destruct ex; lia | reflexivity].
  - destruct (if ex then i <? t else i <=? t) eqn:Q; [| destruct ex; lia]. rewrite (word_small (i + 1)) by lia.
    rewrite (IH (i + 1) (k - 1) t) by (destruct ex; lia). rewrite (offsets_next i k) by lia. reflexivity.
Qed.
Lemma upto_offsets s t : upto s t = offsets s (t - s + 1). Proof. reflexivity. Qed.

Lemma assign_spec sg e n x p k consts fuel : no_length e = false -> 0 <= n < 2 ^ 63 -> emit true sg e n x = Sliced p k -> 0 <= p -> 0 <= k -> p + k <= n -> k < Z.of_nat fuel ->
  assign fuel consts true sg e n x = Offsets (offsets p k).
Proof.
  intros E N M P K B F. unfold emit in M. unfold assign. destruct (slice_values true sg e n x) as [| | s t b] eqn:V; try discriminate.
  destruct (values_range _ _ _ _ _ _ _ _ N V) as [SR TR]. injection M as <- M.
  set (sg' := (match shp x with ConstRange => true | _ => false end) || sg).
  assert (T : t = (if b then s + k else s + k - 1) /\ (b = false -> 1 <= k)).
  { destruct b.
    - split; [| discriminate]. destruct (word_cases (t - s) ltac:(lia)) as [[? Q] | [[? Q] | [? Q]]]; lia.
    - destruct (values_inclusive sg e n x s t E V) as [G1 G2]. fold sg' in G1, G2. unfold gt, ge in G1, G2. rewrite (ival_small sg' s), (ival_small sg' n) in * by lia.
      assert (T2 : t < n) by (unfold ival in *; destruct (sg' && (2 ^ 63 <=? t)) eqn:Q; lia).
      rewrite ival_small in G1 by lia. rewrite (word_small (t + 1)) in M by lia. rewrite word_small in M by lia. lia. }
  destruct T as [T T1].
  assert (T0 : 0 <= t) by lia.
  rewrite (assign_loop_spec sg' b fuel s k t) by (auto; lia).
  destruct consts; [| reflexivity].
  replace ((2 ^ 63 <=? s) || (2 ^ 63 <=? t)) with false by (destruct b; lia).
  destruct (t <? s) eqn:Q1. { destruct b; [lia | specialize (T1 eq_refl); lia]. }
  destruct (b && (s =? t)) eqn:Q2. { destruct b; [| discriminate]. replace k with 0 by lia. reflexivity. }
  rewrite upto_offsets. replace ((if b then t - 1 else t) - s + 1) with k by (destruct b; lia).
  destruct (_ <? UNROLL); reflexivity.
Qed.

Lemma known_spec sg e len n r x k : no_length e = false -> well_formed sg len n r -> ~ (is_len r = true /\ efe r = true /\ len = None) ->
  analyse e len r = Some x -> known_length x = Some k -> k = count n r.
Proof.
  intros E (TS & TE & N & LEN & NS) NE A KL. assert (P : is_pointer e = false) by (destruct e; try discriminate; auto).
  destruct r as [[sv sc] st sf ef il].
  unfold analyse, end_part, start_part, length_part, unresolved, count, first, fits_i64, MAX, known_length, fits_i32 in *.
  rewrite E, P in *. cbn [andb orb negb start stop sfe efe is_len val cst shp r_start r_stop r_sfe r_efe r_len const_end start_index len_index] in *.
  pose proof (typed_word _ _ TS) as TW.
  assert (TE2 : match st with Some o => typed sg (val o) /\ - 2 ^ 63 <= val o < 2 ^ 64 | None => True end) by (destruct st as [o |]; auto; split; [apply TE; auto | apply (typed_word sg); apply TE; auto]).
  destruct st as [[v vc] |]; [destruct TE2 as [TE3 TE4] | destruct (NS eq_refl) as [-> ->]]; destruct len as [m |]; try (destruct (LEN m eq_refl) as [-> LN]); destruct sf, sc; try destruct vc; try destruct ef; try destruct il;
  cbn [andb orb negb start stop sfe efe is_len val cst shp r_start r_stop r_sfe r_efe r_len const_end start_index len_index] in *; clear LEN TE NS.
  all: repeat match goal with H : (if ?b then _ else _) = Some ?y |- _ => lazymatch type of y with resolved => let Q := fresh "Q" in destruct b eqn:Q; try discriminate H end | H : match (if ?b then _ else _) with _ => _ end = Some ?y |- _ => lazymatch type of y with resolved => let Q := fresh "Q" in destruct b eqn:Q; cbn [andb orb negb start stop sfe efe is_len val cst shp r_start r_stop r_sfe r_efe r_len const_end start_index len_index] in H; try discriminate H end end.
  all: try discriminate A.
  all: injection A as <-.
  all: cbn [andb orb negb start stop sfe efe is_len val cst shp r_start r_stop r_sfe r_efe r_len const_end start_index len_index Bool.eqb] in *; try discriminate.
  all: try (exfalso; apply NE; auto; fail).
  all: repeat match goal with H : (if ?b then _ else _) = Some ?y |- _ => let Q := fresh "Q" in destruct b eqn:Q; try discriminate H end.
  all: injection KL as <-; try lia.
  all: match goal with |- i32 ?u = _ => destruct (Z_lt_dec u (2 ^ 31)); [rewrite i32_small by lia; lia |]; exfalso; assert (HU : u = 2 ^ 31) by lia; unfold i32 in *; match goal with Q : (_ mod _ - _ <? 0) = false |- _ => rewrite HU in Q; vm_compute in Q; discriminate Q end end.
Qed.

Lemma pointer_spec sg n r x safe : well_formed sg None n r -> ~ too_far n r -> (cst (start r) = true -> - 2 ^ 31 <= val (start r)) ->
  analyse EPointer None r = Some x ->
  emit safe sg EPointer n x = if safe && negb (is_len r) && (count n r <? 1) then Panic else Sliced (word (first n r)) (word (count n r)).
Proof.
  intros (TS & TE & N & LEN & NS) NF NL A.
  destruct r as [[sv sc] st sf ef il].
  unfold analyse, end_part, start_part, length_part, unresolved, too_far, const_stop, count, first, fits_i64, MAX, emit, slice_values, gt, ge in *.
  cbn [no_length is_pointer andb orb negb start stop sfe efe is_len val cst shp r_start r_stop r_sfe r_efe r_len const_end start_index len_index] in *.
  pose proof (typed_word _ _ TS) as TW.
  destruct st as [[v vc] |]; [| destruct (NS eq_refl) as [-> ->]]; [assert (TE3 : typed sg v) by (apply (TE _ eq_refl)); pose proof (typed_word _ _ TE3) as TE4 |]; destruct sf, sc; try destruct vc; try destruct ef; try destruct il;
  cbn [andb orb negb start stop sfe efe is_len val cst shp r_start r_stop r_sfe r_efe r_len const_end start_index len_index] in *; clear LEN TE NS; try discriminate A.
  all: repeat match goal with H : (if ?b then _ else _) = Some ?y |- _ => let Q := fresh "Q" in destruct b eqn:Q; try discriminate H | H : match (if ?b then _ else _) with _ => _ end = Some ?y |- _ => let Q := fresh "Q" in destruct b eqn:Q; cbn [andb orb negb start stop sfe efe is_len val cst shp r_start r_stop r_sfe r_efe r_len const_end start_index len_index] in H; try discriminate H end.
  all: injection A as <-.
  all: cbn [andb orb negb start stop sfe efe is_len val cst shp r_start r_stop r_sfe r_efe r_len const_end start_index len_index Bool.eqb] in *.
  all: rewrite ?andb_false_r, ?andb_true_r in *; cbn [andb] in *.
  all: try (assert (typed sg v) by (unfold typed; destruct sg; lia)).
  all: repeat rewrite ival_word by (auto; unfold typed; destruct sg; lia).
  all: repeat match goal with |- context [i32 ?u] => rewrite (i32_small u) by lia end.
  all: repeat first [rewrite word_add_r | rewrite word_add_l | rewrite word_sub_l | rewrite word_sub_r].
  all: try (f_equal; f_equal; lia).
  all: destruct safe; cbn [andb]; try (f_equal; f_equal; lia).
  all: try (replace (v - sv + 1 <? 1) with (v <? sv) by lia; destruct (v <? sv) eqn:CMP; [reflexivity || lia |]).
  all: f_equal; repeat first [rewrite word_add_r | rewrite word_add_l | rewrite word_sub_l | rewrite word_sub_r]; try (f_equal; lia).
Qed.

Lemma index_direct sg e len n o o' f' safe : no_length e = false -> typed sg (val o) -> 0 <= n < 2 ^ 63 -> (forall m, len = Some m -> m = n) ->
  analyse_index e len o false = Some (o', f') ->
  emit_index safe sg n o' f' = if (0 <=? val o) && (val o <? n) then At (val o) else if safe then IPanic else Undefined.
Proof.
  intros E T N L A. unfold analyse_index in A. rewrite E in A. cbn [andb] in A.
  assert (EQ : val o' = val o /\ f' = false).
  { destruct (cst o); cbn [negb] in A; [| injection A as <- <-; auto].
    destruct len as [m |].
    - destruct ((_ || _) || _); [discriminate |]. destruct (_ || _); [discriminate |]. destruct e; injection A as <- <-; auto.
    - destruct (negb _); [discriminate |]. destruct e; try discriminate E; destruct (_ <? _); try discriminate; injection A as <- <-; auto. }
  destruct EQ as [EV ->]. unfold emit_index, ge. cbn [andb]. rewrite EV. rewrite (ival_word sg _ T), (ival_small sg n N).
  pose proof (typed_word _ _ T) as TW. pose proof (word_range (val o)) as WR.
  destruct (word_cases (val o) ltac:(lia)) as [[C W] | [[C W] | [C W]]]; [| | lia].
  - replace ((0 <=? val o) && (val o <? n)) with false by lia. replace (val o <? 0) with true by lia. destruct safe; cbn [andb]; [reflexivity |].
    rewrite W. unfold typed in T. destruct sg; [| lia]. replace ((0 <=? val o + 2 ^ 64) && (val o + 2 ^ 64 <? n)) with false by lia. reflexivity.
  - rewrite W. replace (val o <? 0) with false by lia. rewrite andb_false_r. destruct (val o <? n) eqn:Q; [replace (n <=? val o) with false by lia | replace (n <=? val o) with true by lia].
    + rewrite andb_false_r. replace (0 <=? val o) with true by lia. reflexivity.
    + rewrite andb_false_r. destruct safe; reflexivity.
Qed.
Lemma index_from_end sg e len n o o' f' safe : no_length e = false -> typed sg (val o) -> 0 <= n < 2 ^ 63 -> (forall m, len = Some m -> m = n) ->
  0 <= val o <= n -> analyse_index e len o true = Some (o', f') ->
  emit_index safe sg n o' f' = if 1 <=? val o then At (n - val o) else if safe then IPanic else Undefined.
Proof.
  intros E T N L V A. unfold analyse_index in A. rewrite E in A. cbn [andb] in A.
  assert (EQ : val o' = val o /\ f' = true \/ val o' = n - val o /\ f' = false /\ 1 <= val o).
  { destruct (cst o); cbn [negb] in A; [| injection A as <- <-; auto].
    destruct len as [m |].
    - rewrite (L m eq_refl) in *. destruct ((_ || _) || _); [discriminate |]. destruct (_ || _) eqn:Q; [discriminate |]. destruct e; injection A as <- <-; auto. right. cbn [val]. lia.
    - destruct (negb _); [discriminate |]. destruct (_ || _); [discriminate |]. injection A as <- <-; auto. }
  destruct EQ as [[EV ->] | (EV & -> & V1)]; unfold emit_index, ge; cbn [andb]; rewrite EV; rewrite (ival_small sg n N).
  - rewrite word_small by lia. replace (n <? val o) with false by lia. rewrite (ival_small sg (n - val o)) by lia. replace (n - val o <? 0) with false by lia. rewrite andb_false_r.
    destruct (1 <=? val o) eqn:Q.
    + replace (n <=? n - val o) with false by lia. rewrite andb_false_r. replace ((0 <=? n - val o) && (n - val o <? n)) with true by lia. reflexivity.
    + replace (n <=? n - val o) with true by lia. replace ((0 <=? n - val o) && (n - val o <? n)) with false by lia. destruct safe; reflexivity.
  - rewrite word_small by lia. rewrite (ival_small sg (n - val o)) by lia. replace (n - val o <? 0) with false by lia. rewrite andb_false_r.
    replace (1 <=? val o) with true by lia. replace (n <=? n - val o) with false by lia. rewrite andb_false_r. replace ((0 <=? n - val o) && (n - val o <? n)) with true by lia. reflexivity.
Qed.
Lemma index_rejected sg e len n o (f : bool) : no_length e = false -> typed sg (val o) -> 0 <= n < 2 ^ 63 -> (forall m, len = Some m -> m = n) -> (len = None -> val o < 2 ^ 31) ->
  analyse_index e len o f = None -> ~ (if f then 1 <= val o <= n else 0 <= val o < n).
Proof.
  intros E T N L V A H. unfold analyse_index in A. rewrite E in A. rewrite andb_false_r in A. destruct (cst o); cbn [negb] in A; [| discriminate].
  unfold fits_i64 in A. destruct len as [m |].
  - rewrite (L m eq_refl) in *. destruct ((_ || _) || _) eqn:Q in A; [destruct f; lia |]. destruct (_ || _) eqn:Q1 in A; [destruct f; lia |]. destruct e; discriminate.
  - specialize (V eq_refl). destruct (negb _) eqn:Q in A; [destruct f; lia |].
    rewrite i32_small in A by (destruct f; lia).
    destruct f; [destruct (_ || _) eqn:Q1 in A; [lia | discriminate] |]. destruct e; try discriminate; destruct (val o <? 0) eqn:Q1 in A; try discriminate; lia.
Qed.

Lemma const_full_part {T} (l : list T) s k : 0 <= s -> 0 <= k -> s + k <= Z.of_nat (length l) -> const_full l s k = part l s k.
Proof.
  intros S0 K B. unfold const_full, part. rewrite firstn_app. replace (Z.to_nat k - length (skipn (Z.to_nat s) l))%nat with O by (rewrite skipn_length; lia).
  rewrite firstn_O, app_nil_r. reflexivity.
Qed.
Lemma sparse_filter {T} (l : list (Z * T)) s k i : s <= i < s + k -> sparse_at (const_sparse l s k) i = sparse_at l i.
Proof.
  intros I. unfold const_sparse. induction l as [| [j v] l IH]; [reflexivity |]. cbn [filter fst sparse_at].
  destruct ((j <? s) || (s + k <=? j)) eqn:Q; cbn [negb].
  - replace (i =? j) with false by lia. exact IH.
  - cbn [sparse_at]. rewrite IH. reflexivity.
Qed.
Lemma const_range_spec sg e n r x : no_length e = false -> well_formed sg (Some n) n r -> ~ too_far n r -> analyse e (Some n) r = Some x -> shp x = ConstRange ->
  start_index x = first n r /\ len_index x = count n r.
Proof.
  intros E W NF A SH.
  assert (NT : ~ folded_tail (Some n) r).
  { intros (F1 & F2 & _ & o & F3 & F4). destruct r as [[sv sc] st sf ef il]. cbn [sfe cst start stop] in *. subst. destruct o as [v c]. cbn [cst] in F4. subst.
    unfold analyse, end_part, start_part, length_part, unresolved in A. cbn [start stop sfe efe is_len val cst r_start shp r_sfe] in A. rewrite E in A. cbn [andb] in A.
    repeat match type of A with
    | match (if ?b then _ else _) with _ => _ end = _ => destruct b; try discriminate A
    | (match (match _ with _ => _ end) with _ => _ end) = _ => idtac
    end; injection A as <-; discriminate SH. }
  destruct (analyse_ok sg e (Some n) n r x E W NT NF A) as (C & F & K & _). unfold coherent in C. rewrite SH in C. destruct C as (C & _). unfold rfirst, rcount, rlast in *. rewrite SH, C in *. auto.
Qed.

Lemma shift_spec sl sr wl wr v : 8 <= wr <= wl -> wl <= 128 -> 0 <= v < 2 ^ wr ->
  shift_distance true sl wl v = if (0 <=? number sr wr v) && (number sr wr v <? wl) then At (number sr wr v) else IPanic.
Proof.
  intros R L V. unfold shift_distance, wval, number. cbn [andb].
  assert (P1 : 2 ^ wr <= 2 ^ wl) by (apply Z.pow_le_mono_r; lia). rewrite Z.mod_small by lia.
  assert (P2 : 2 ^ 7 <= 2 ^ (wr - 1)) by (apply Z.pow_le_mono_r; lia). assert (P3 : 2 ^ 7 <= 2 ^ (wl - 1)) by (apply Z.pow_le_mono_r; lia).
  change (2 ^ 7) with 128 in *.
  assert (P4 : 2 ^ wr = 2 * 2 ^ (wr - 1)) by (rewrite <- Z.pow_succ_r by lia; f_equal; lia).
  assert (P5 : 2 ^ wl = 2 * 2 ^ (wl - 1)) by (rewrite <- Z.pow_succ_r by lia; f_equal; lia).
  destruct sr, sl; cbn [andb];
    repeat match goal with |- context [if ?a <=? ?b then _ else _] => let Q := fresh "Q" in destruct (a <=? b) eqn:Q | |- context [if ?a then _ else _] => let Q := fresh "Q" in destruct a eqn:Q end; try reflexivity; try lia.
Qed.
Lemma shift_const sl wl wr c safe : 8 <= wr -> 8 <= wl <= 128 -> - 2 ^ (wr - 1) <= c < 2 ^ wr -> check_shift wl c = true -> shift_distance safe sl wl (c mod 2 ^ wr) = At c.
Proof.
  intros R L V H. unfold check_shift in H. assert (0 <= c < wl) by lia.
  assert (P2 : 2 ^ 7 <= 2 ^ (wl - 1)) by (apply Z.pow_le_mono_r; lia). change (2 ^ 7) with 128 in *.
  assert (P5 : 2 ^ wl = 2 * 2 ^ (wl - 1)) by (rewrite <- Z.pow_succ_r by lia; f_equal; lia).
  rewrite Z.mod_small by lia. unfold shift_distance, wval. rewrite Z.mod_small by lia.
  replace (sl && (2 ^ (wl - 1) <=? c)) with false by (destruct sl; lia).
  replace (if sl then (c <? 0) || (wl <=? c) else wl <=? c) with false by (destruct sl; lia). rewrite andb_false_r. replace (c <? wl) with true by lia. reflexivity.
Qed.
Lemma ordinal_spec safe (sg : bool) w n v : 8 <= w -> 0 <= v < 2 ^ w -> 0 < n < (if sg then 2 ^ (w - 1) else 2 ^ w) ->
  (safe = false -> number sg w v = v) ->
  from_ordinal safe sg w n v = if (0 <=? number sg w v) && (number sg w v <? n) then At (number sg w v) else if safe then IPanic else Undefined.
Proof.
  intros W V N US. unfold from_ordinal, wval, number in *.
  assert (P4 : 2 ^ w = 2 * 2 ^ (w - 1)) by (rewrite <- Z.pow_succ_r by lia; f_equal; lia).
  rewrite (Z.mod_small n) by (destruct sg; lia).
  replace (sg && (2 ^ (w - 1) <=? n)) with false by (destruct sg; lia).
  destruct safe, sg; cbn [andb] in *; try specialize (US eq_refl);
    repeat match goal with |- context [if ?a <=? ?b then _ else _] => let Q := fresh "Q" in destruct (a <=? b) eqn:Q | |- context [if ?a then _ else _] => let Q := fresh "Q" in destruct a eqn:Q end; try reflexivity; try lia.
Qed.

(** Constant ends against a length known at compile time. *)
Lemma analyse_rejects e n r x : no_length e = false -> 0 <= n < 2 ^ 31 -> analyse e (Some n) r = Some x ->
  (forall v, cst (start r) = false -> stop r = Some (Operand v true) -> efe r = false -> v < 2 ^ 31 -> 0 <= v /\ if is_len r then v <= n else v < n) /\
  (forall v w, start r = Operand v true -> sfe r = false -> stop r = Some (Operand w true) -> efe r = false -> w < 2 ^ 31 -> v < 2 ^ 31 -> 0 <= v < n).
Proof.
  intros NE N A. assert (P : is_pointer e = false) by (destruct e; cbn in *; congruence).
  destruct r as [[s sc] st sf ef il]. unfold analyse, end_part, start_part, length_part, unresolved in A. cbn [start stop sfe efe is_len] in *. rewrite NE, P in A. cbn [andb negb] in A.
  split.
  - cbn [cst]. intros v -> -> -> V. rewrite !andb_true_r in A.
    destruct (fits_i64 v); cbn [negb] in A; [|discriminate A]. destruct (v <? 0) eqn:V0; [discriminate A|]. replace ((MAX <? v) || (v <? - MAX)) with false in A by (unfold MAX; lia). split; [lia|].
    cbn [r_start shp r_sfe r_stop r_efe r_len const_end] in A.
    destruct il; cbn [shp const_end] in A; [destruct (Z.ltb_spec n v); [discriminate A|lia]|destruct (Z.leb_spec n v); [discriminate A|lia]].
  - intros v w [= -> ->] -> -> -> W V. rewrite !andb_true_r in A.
    destruct (fits_i64 w); cbn [negb] in A; [|discriminate A]. destruct (w <? 0) eqn:W0; [discriminate A|]. replace ((MAX <? w) || (w <? - MAX)) with false in A by (unfold MAX; lia).
    cbn [r_start shp r_sfe r_stop r_efe r_len const_end] in A. destruct (fits_i64 v); cbn [negb] in A; [|discriminate A]. destruct (Z.ltb_spec v 0); cbn [andb] in A; [discriminate A|]. destruct (Z.leb_spec n v); [discriminate A|]. lia.
Qed.
