(** C150-C156: indexing, slicing, assignment to slices, checked shifts and ordinals. *)
From Coq Require Import ZArith Bool List Lia ZifyBool.
From Verif Require Import SliceModel SliceSpec SliceProofs SliceProofs2 SliceProofs3.
Import ListNotations.
Local Open Scope Z_scope.
Ltac wf := unfold well_formed, typed; cbn [start stop sfe efe is_len val cst]; split; [lia |]; split; [intros ? WFE; (discriminate WFE || (injection WFE as <-; cbn [val]; lia)) |]; split; [lia |];
  split; [intros ? WFE; (discriminate WFE || (injection WFE as <-; split; [reflexivity | vm_compute; discriminate])) | intros WFE; (discriminate WFE || (split; reflexivity))].

(** ** C150: an index reads the element it names, or the program stops.  Missing: [^i] beyond the start, and vectors. *)
Theorem C150_index : forall sg e len n o o' f' safe, no_length e = false -> typed sg (val o) -> 0 <= n < 2 ^ 63 -> (forall m, len = Some m -> m = n) ->
  analyse_index e len o false = Some (o', f') ->
  emit_index safe sg n o' f' = if (0 <=? val o) && (val o <? n) then At (val o) else if safe then IPanic else Undefined.
Proof. exact index_direct. Qed.
Example C150_index_ex : analyse_index ESlice None (Operand (-1) false) false = Some (Operand (-1) false, false) /\ emit_index true true 5 (Operand (-1) false) false = IPanic /\
  emit_index true true 5 (Operand 4 false) false = At 4 /\ emit_index true false 5 (Operand 5 false) false = IPanic.
Proof. vm_compute. auto. Qed.
Print Assumptions C150_index.

Theorem C150_from_end_partial : forall sg e len n o o' f' safe, no_length e = false -> typed sg (val o) -> 0 <= n < 2 ^ 63 -> (forall m, len = Some m -> m = n) ->
  0 <= val o <= n -> analyse_index e len o true = Some (o', f') ->
  emit_index safe sg n o' f' = if 1 <=? val o then At (n - val o) else if safe then IPanic else Undefined.
Proof. exact index_from_end. Qed.
Example C150_from_end_ex : analyse_index EArray (Some 5) (Operand 2 true) true = Some (Operand 3 true, false) /\ emit_index true true 5 (Operand 3 true) false = At 3 /\
  analyse_index ESlice None (Operand 2 true) true = Some (Operand 2 true, true) /\ emit_index true true 5 (Operand 2 true) true = At 3 /\ emit_index true true 5 (Operand 0 false) true = IPanic.
Proof. vm_compute. auto 6. Qed.
Print Assumptions C150_from_end_partial.

(** [a[^6]] of five elements in safe mode: no panic, but an undefined value. *)
Theorem C150_from_end_refuted : exists n o o' f', 0 <= n < 2 ^ 63 /\ typed true (val o) /\ n < val o /\ analyse_index ESlice None o true = Some (o', f') /\ emit_index true true n o' f' = Undefined.
Proof. exists 5, (Operand 6 false), (Operand 6 false), true. vm_compute. repeat split; auto; discriminate. Qed.
Print Assumptions C150_from_end_refuted.
(** An index beyond the end of a vector. *)
Theorem C150_vector_refuted : exists n o o' f', typed true (val o) /\ analyse_index EArray (Some n) o false = Some (o', f') /\ n <= val o /\ emit_vector_index n o' f' = Undefined.
Proof. exists 4, (Operand 4 false), (Operand 4 false), false. vm_compute. repeat split; auto; discriminate. Qed.
Print Assumptions C150_vector_refuted.

(** What is rejected at compile time does not exist.  Missing: constants of 32 bits and more where the length is not known. *)
Theorem C150_rejected_partial : forall sg e len n o (f : bool), no_length e = false -> typed sg (val o) -> 0 <= n < 2 ^ 63 -> (forall m, len = Some m -> m = n) -> (len = None -> val o < 2 ^ 31) ->
  analyse_index e len o f = None -> ~ (if f then 1 <= val o <= n else 0 <= val o < n).
Proof. exact index_rejected. Qed.
Example C150_rejected_ex : analyse_index EArray (Some 5) (Operand 5 true) false = None /\ analyse_index EArray (Some 5) (Operand 0 true) true = None /\ analyse_index ESlice None (Operand 0 true) true = None.
Proof. vm_compute. auto. Qed.
Print Assumptions C150_rejected_partial.
Theorem C150_rejected_refuted : exists n o, 0 <= n < 2 ^ 63 /\ typed true (val o) /\ 0 <= val o < n /\ analyse_index ESlice None o false = None.
Proof. exists (2 ^ 32), (Operand (2 ^ 31) true). vm_compute. repeat split; auto; discriminate. Qed.
Print Assumptions C150_rejected_refuted.

(** ** C151: in safe mode a slice is the part of the object that was written, inside the object.  Missing: lengths that are negative or
    overflow, a constant start from the end with an end that is not constant, constants beyond 31 bits. *)
Theorem C151_sound_partial : forall sg e len n r x p k, no_length e = false -> well_formed sg len n r -> ~ folded_tail len r -> ~ too_far n r -> sane_length sg n r ->
  analyse e len r = Some x -> emit true sg e n x = Sliced p k -> p = first n r /\ k = count n r /\ inside n r.
Proof. exact slice_sound. Qed.
Example C151_sound_ex : let r := Range (Operand 1 true) (Some (Operand 2 false)) false true false in
  well_formed true (Some 6) 6 r /\ ~ folded_tail (Some 6) r /\ ~ too_far 6 r /\ sane_length true 6 r /\
  analyse EArray (Some 6) r = Some (unresolved r) /\ emit true true EArray 6 (unresolved r) = Sliced 1 4.
Proof.
  cbv zeta. split; [wf |]. split; [intros (H & _); discriminate H |]. split; [intros (_ & [[H _] | (_ & H & _)]); discriminate H |].
  split; [intros H; discriminate H |]. split; vm_compute; reflexivity.
Qed.
Print Assumptions C151_sound_partial.

(** Every slice that lies inside is accepted, and is the part written, with or without the checks.  Missing: also the empty rest of an
    object whose length is known. *)
Theorem C151_complete_partial : forall sg e len n r, no_length e = false -> well_formed sg len n r -> ~ folded_tail len r -> ~ too_far n r ->
  ~ (len <> None /\ first n r = n /\ (cst (start r) = true \/ stop r = None)) -> inside n r ->
  exists x, analyse e len r = Some x /\ forall safe, emit safe sg e n x = Sliced (first n r) (count n r).
Proof. exact slice_complete. Qed.
Example C151_complete_ex : exists x, analyse ESlice None (Range (Operand 2 true) (Some (Operand 3 true)) false false true) = Some x /\ shp x = ConstRange /\ emit false true ESlice 7 x = Sliced 2 3.
Proof. eexists. split; [vm_compute; reflexivity |]. vm_compute; auto. Qed.
Print Assumptions C151_complete_partial.

(** A constant end or start outside the length known at compile time is an error there.  Missing: both ends constant, where only the number
    of elements is compared (see C152), and a start counted from the end. *)
Theorem C151_rejects_partial : forall e n r x, no_length e = false -> 0 <= n < 2 ^ 31 -> analyse e (Some n) r = Some x ->
  (forall v, cst (start r) = false -> stop r = Some (Operand v true) -> efe r = false -> v < 2 ^ 31 -> 0 <= v /\ if is_len r then v <= n else v < n) /\
  (forall v w, start r = Operand v true -> sfe r = false -> stop r = Some (Operand w true) -> efe r = false -> w < 2 ^ 31 -> v < 2 ^ 31 -> 0 <= v < n).
Proof. exact analyse_rejects. Qed.
Example C151_rejects_ex : exists x, analyse EArray (Some 3) (Range (Operand 1 true) (Some (Operand 2 true)) false false false) = Some x /\ analyse EArray (Some 3) (Range (Operand 1 false) (Some (Operand 3 true)) false false false) = None.
Proof. eexists. split; vm_compute; reflexivity. Qed.
Print Assumptions C151_rejects_partial.

(** No range trips an assertion of the code generator. *)
Theorem C151_no_assertion : forall sg e len n r x safe, well_formed sg len n r -> (len <> None -> no_length e = false) -> analyse e len r = Some x -> emit safe sg e n x <> Assertion.
Proof. exact no_assertion. Qed.
Example C151_no_assertion_ex : exists x, analyse EPointer None (Range (Operand (-2) false) (Some (Operand 3 true)) false false false) = Some x /\ shp x = ConstEnd /\ emit true true EPointer 0 x = Sliced (2 ^ 64 - 2) 6.
Proof. eexists. split; [vm_compute; reflexivity |]. vm_compute; auto. Qed.
Print Assumptions C151_no_assertion.

(** A pointer has no length to check: only that the end is not before the start. *)
Theorem C151_pointer_partial : forall sg n r x safe, well_formed sg None n r -> ~ too_far n r -> (cst (start r) = true -> - 2 ^ 31 <= val (start r)) ->
  analyse EPointer None r = Some x ->
  emit safe sg EPointer n x = if safe && negb (is_len r) && (count n r <? 1) then Panic else Sliced (first n r mod 2 ^ 64) (count n r mod 2 ^ 64).
Proof. exact pointer_spec. Qed.
Example C151_pointer_ex : exists x, analyse EPointer None (Range (Operand 4 false) (Some (Operand 2 false)) false false false) = Some x /\ emit true true EPointer 0 x = Panic.
Proof. eexists. split; [vm_compute; reflexivity |]. vm_compute; auto. Qed.
Print Assumptions C151_pointer_partial.

(** [a[2:i]] with i = -1: the slice of 2^64 - 1 elements. *)
Theorem C151_length_refuted : exists n r x p k, well_formed true None n r /\ ~ folded_tail None r /\ ~ too_far n r /\ analyse ESlice None r = Some x /\ emit true true ESlice n x = Sliced p k /\ ~ inside n r /\ n < k.
Proof.
  exists 5, (Range (Operand 2 false) (Some (Operand (-1) false)) false false true). do 3 eexists.
  split; [wf |].
  split. { intros (H & _); discriminate H. } split. { intros (H & _); discriminate H. }
  split; [reflexivity |]. split; [vm_compute; reflexivity |]. split; [intros (_ & _ & H); cbn in H; lia | reflexivity].
Qed.
Print Assumptions C151_length_refuted.
(** [a[^2..i]] on an array of ten elements starts at 2, not at 8. *)
Theorem C151_from_end_refuted : exists n r x p k, well_formed true (Some n) n r /\ inside n r /\ ~ too_far n r /\ analyse EArray (Some n) r = Some x /\ emit true true EArray n x = Sliced p k /\ p <> first n r.
Proof.
  exists 10, (Range (Operand 2 true) (Some (Operand 9 false)) true false false). do 3 eexists.
  split; [wf |].
  split. { vm_compute; repeat split; discriminate. } split. { intros (_ & [[H _] | (_ & H & _)]); discriminate H. }
  split; [reflexivity |]. split; [vm_compute; reflexivity |]. vm_compute. discriminate.
Qed.
Print Assumptions C151_from_end_refuted.
(** [s[3000000000:5]] and [s[0..2147483647]] on a slice of eight elements are not stopped. *)
Theorem C151_constant_refuted : exists n r r' x x' p k p' k', well_formed true None n r /\ well_formed true None n r' /\
  analyse ESlice None r = Some x /\ emit true true ESlice n x = Sliced p k /\ n < p /\
  analyse ESlice None r' = Some x' /\ emit true true ESlice n x' = Sliced p' k' /\ n < k'.
Proof.
  exists 8, (Range (Operand 3000000000 true) (Some (Operand 5 true)) false false true), (Range (Operand 0 true) (Some (Operand 2147483647 true)) false false false). do 6 eexists.
  split; [wf |].
  split; [wf |].
  split; [vm_compute; reflexivity |]. split; [vm_compute; reflexivity |]. split; [reflexivity |].
  split; [vm_compute; reflexivity |]. split; [vm_compute; reflexivity |]. reflexivity.
Qed.
Print Assumptions C151_constant_refuted.
(** The empty rest: [a[i..]] with i = 3 of an array of three elements panics, but of a slice of three elements it is empty. *)
Theorem C151_empty_refuted : exists n r x x', well_formed true (Some n) n r /\ inside n r /\ analyse EArray (Some n) r = Some x /\ emit true true EArray n x = Panic /\
  analyse ESlice None r = Some x' /\ emit true true ESlice n x' = Sliced n 0.
Proof.
  exists 3, (Range (Operand 3 false) None false false false). do 2 eexists.
  split; [wf |].
  split. { vm_compute; repeat split; discriminate. }
  split; [vm_compute; reflexivity |]. split; [vm_compute; reflexivity |]. split; [vm_compute; reflexivity |]. vm_compute; reflexivity.
Qed.
Print Assumptions C151_empty_refuted.

(** ** C152: the slice of a constant is the same part of the constant.  Missing: slices that end beyond the constant, which are accepted, and
    sparse arrays that are not cut at 0. *)
Theorem C152_constant_partial : forall sg e (data : list Z) r x, no_length e = false -> well_formed sg (Some (Z.of_nat (length data))) (Z.of_nat (length data)) r ->
  ~ too_far (Z.of_nat (length data)) r -> inside (Z.of_nat (length data)) r ->
  analyse e (Some (Z.of_nat (length data))) r = Some x -> shp x = ConstRange ->
  const_bytes data (start_index x) (len_index x) = Some (part data (first (Z.of_nat (length data)) r) (count (Z.of_nat (length data)) r)) /\
  const_full data (start_index x) (len_index x) = part data (first (Z.of_nat (length data)) r) (count (Z.of_nat (length data)) r).
Proof.
  intros sg e data r x E W NF IN A SH. destruct (const_range_spec sg e _ r x E W NF A SH) as [-> ->]. destruct IN as (I1 & I2 & I3).
  assert (K : 0 <= count (Z.of_nat (length data)) r) by (destruct (is_len r), (stop r); lia).
  split; [| apply const_full_part; lia]. unfold const_bytes, part. destruct (_ <? _) eqn:Q; [lia | reflexivity].
Qed.
Example C152_constant_ex : exists x, analyse EArray (Some 5) (Range (Operand 3 true) (Some (Operand 1 true)) true true false) = Some x /\ shp x = ConstRange /\ const_full [1; 2; 3; 4; 5] (start_index x) (len_index x) = [3; 4; 5].
Proof. eexists. split; [vm_compute; reflexivity |]. vm_compute; auto. Qed.
Print Assumptions C152_constant_partial.
(** "abc"[1:3] is accepted, and reads beyond the string; {1, 2, 3}[1:3] is {2, 3, 3}. *)
Theorem C152_constant_refuted : exists (data : list Z) r x, well_formed true (Some 3) 3 r /\ length data = 3%nat /\ ~ too_far 3 r /\ ~ inside 3 r /\
  analyse EArray (Some 3) r = Some x /\ shp x = ConstRange /\ const_bytes data (start_index x) (len_index x) = None /\ const_full data (start_index x) (len_index x) = [2; 3; 3].
Proof.
  exists [1; 2; 3], (Range (Operand 1 true) (Some (Operand 3 true)) false false true). eexists. split; [wf |]. split; [reflexivity |].
  split. { intros (_ & [[_ H] | [H _]]); [vm_compute in H; discriminate H | discriminate H]. } split. { intros (_ & H & _). cbn in H. lia. }
  split; [vm_compute; reflexivity |]. vm_compute. auto.
Qed.
Print Assumptions C152_constant_refuted.
(** A sparse constant array keeps its elements, under the old indices: right only if the slice starts at 0. *)
Theorem C152_sparse_partial : forall T sg e n (l : list (Z * T)) r x i, no_length e = false -> well_formed sg (Some n) n r -> ~ too_far n r ->
  analyse e (Some n) r = Some x -> shp x = ConstRange -> first n r = 0 -> 0 <= i < count n r ->
  sparse_at (const_sparse l (start_index x) (len_index x)) i = sparse_at l (first n r + i).
Proof. intros T sg e n l r x i E W NF A SH F I. destruct (const_range_spec sg e n r x E W NF A SH) as [-> ->]. rewrite F. apply sparse_filter. lia. Qed.
Example C152_sparse_ex : exists x, analyse EArray (Some 9) (Range (Operand 0 true) (Some (Operand 5 true)) false false true) = Some x /\
  shp x = ConstRange /\ const_sparse [(2, 7); (6, 8)] (start_index x) (len_index x) = [(2, 7)].
Proof. eexists. split; [vm_compute; reflexivity |]. vm_compute; auto. Qed.
Print Assumptions C152_sparse_partial.
Theorem C152_sparse_refuted : exists (l : list (Z * Z)) n r x i, well_formed true (Some n) n r /\ inside n r /\ analyse EArray (Some n) r = Some x /\ shp x = ConstRange /\ 0 <= i < count n r /\
  sparse_at (const_sparse l (start_index x) (len_index x)) i <> sparse_at l (first n r + i).
Proof.
  exists [(2, 5)], 9, (Range (Operand 1 true) (Some (Operand 3 true)) false false true). eexists. exists 1. split; [wf |]. split. { vm_compute; repeat split; discriminate. }
  split; [vm_compute; reflexivity |]. split; [reflexivity |]. split; [vm_compute; split; [discriminate | reflexivity] |]. vm_compute. discriminate.
Qed.
Print Assumptions C152_sparse_refuted.

(** ** C153: the length the compiler knows of a slice is its length.  Missing: a length counted from the end of an object of unknown length. *)
Theorem C153_known_length_partial : forall sg e len n r x k, no_length e = false -> well_formed sg len n r -> ~ (is_len r = true /\ efe r = true /\ len = None) ->
  analyse e len r = Some x -> known_length x = Some k -> k = count n r.
Proof. exact known_spec. Qed.
Example C153_known_length_ex : exists x, analyse ESlice None (Range (Operand 5 true) (Some (Operand 2 true)) true true false) = Some x /\ known_length x = Some 4 /\ emit true true ESlice 9 x = Sliced 4 4.
Proof. eexists. split; [vm_compute; reflexivity |]. vm_compute; auto. Qed.
Print Assumptions C153_known_length_partial.
(** [s[0:^1]] has the known length 1, whatever the length of s. *)
Theorem C153_known_length_refuted : exists n r x k, well_formed true None n r /\ analyse ESlice None r = Some x /\ known_length x = Some k /\ emit true true ESlice n x = Sliced (first n r) (count n r) /\ k <> count n r.
Proof.
  exists 5, (Range (Operand 0 true) (Some (Operand 1 true)) false true true). do 2 eexists. split; [wf |].
  split; [vm_compute; reflexivity |]. split; [vm_compute; reflexivity |]. split; [vm_compute; reflexivity |]. vm_compute. discriminate.
Qed.
Print Assumptions C153_known_length_refuted.

(** ** C154: assignment to a slice writes every element of the slice once, in order, and nothing else, whether or not it is unrolled.
    Missing: as for C151, and pointers. *)
Theorem C154_assign_partial : forall sg e len n r x p k consts, no_length e = false -> well_formed sg len n r -> ~ folded_tail len r -> ~ too_far n r -> sane_length sg n r ->
  analyse e len r = Some x -> emit true sg e n x = Sliced p k ->
  forall fuel, k < Z.of_nat fuel -> assign fuel consts true sg e n x = Offsets (offsets (first n r) (count n r)).
Proof.
  intros sg e len n r x p k consts E W NT NF SL A M fuel F. destruct (slice_sound sg e len n r x p k E W NT NF SL A M) as (-> & -> & I1 & I2 & I3).
  assert (N : 0 <= n < 2 ^ 63) by (destruct W as (_ & _ & N & _); exact N).
  apply assign_spec; auto; destruct (is_len r), (stop r); lia.
Qed.
Example C154_assign_ex : exists x, analyse EArray (Some 9) (Range (Operand 2 false) (Some (Operand 2 true)) false true false) = Some x /\
  assign 20 false true true EArray 9 x = Offsets [2; 3; 4; 5; 6; 7] /\ assign 20 true true true EArray 9 x = Offsets [2; 3; 4; 5; 6; 7].
Proof. eexists. split; [vm_compute; reflexivity |]. vm_compute; auto. Qed.
Print Assumptions C154_assign_partial.
(** [p[-1..0] = x] through a pointer stops the compiler. *)
Theorem C154_pointer_refuted : exists r x, well_formed true None 0 r /\ analyse EPointer None r = Some x /\ forall fuel, assign fuel true true true EPointer 0 x = WAssertion.
Proof. exists (Range (Operand (-1) true) (Some (Operand 0 true)) false false false). eexists. split; [wf |]. split; [vm_compute; reflexivity |]. intros [|fuel]; vm_compute; reflexivity. Qed.
Print Assumptions C154_pointer_refuted.

(** ** C155: in safe mode a shift is by the distance written, or the program stops.  Missing: a right side wider than the left side. *)
Theorem C155_shift_partial : forall sl sr wl wr v, 8 <= wr <= wl -> wl <= 128 -> 0 <= v < 2 ^ wr ->
  shift_distance true sl wl v = if (0 <=? number sr wr v) && (number sr wr v <? wl) then At (number sr wr v) else IPanic.
Proof. exact shift_spec. Qed.
Example C155_shift_ex : shift_distance true true 32 31 = At 31 /\ shift_distance true true 32 32 = IPanic /\ shift_distance true false 64 (2 ^ 64 - 1) = IPanic.
Proof. vm_compute. auto. Qed.
Print Assumptions C155_shift_partial.
Theorem C155_constant : forall sl wl wr c safe, 8 <= wr -> 8 <= wl <= 128 -> - 2 ^ (wr - 1) <= c < 2 ^ wr -> check_shift wl c = true -> shift_distance safe sl wl (c mod 2 ^ wr) = At c.
Proof. exact shift_const. Qed.
Example C155_constant_ex : check_shift 32 31 = true /\ check_shift 32 32 = false /\ check_shift 32 (-1) = false.
Proof. vm_compute. auto. Qed.
Print Assumptions C155_constant.
(** An int shifted by the long 2^32 + 1 is shifted by 1. *)
Theorem C155_shift_refuted : exists wl wr v, 8 <= wl <= 128 /\ 8 <= wr <= 128 /\ 0 <= v < 2 ^ wr /\ wl <= v /\ shift_distance true true wl v = At 1.
Proof. exists 32, 64, (2 ^ 32 + 1). vm_compute. repeat split; auto; discriminate. Qed.
Print Assumptions C155_shift_refuted.

(** ** C156: from_ordinal gives the value of that ordinal, or in safe mode the program stops.  Missing: enums with as many values as the type of the number can count. *)
Theorem C156_ordinal_partial : forall safe (sg : bool) w n v, 8 <= w -> 0 <= v < 2 ^ w -> 0 < n < (if sg then 2 ^ (w - 1) else 2 ^ w) ->
  (safe = false -> number sg w v = v) ->
  from_ordinal safe sg w n v = if (0 <=? number sg w v) && (number sg w v <? n) then At (number sg w v) else if safe then IPanic else Undefined.
Proof. exact ordinal_spec. Qed.
Example C156_ordinal_ex : from_ordinal true true 32 3 2 = At 2 /\ from_ordinal true true 32 3 3 = IPanic /\ from_ordinal true true 32 3 (2 ^ 32 - 1) = IPanic.
Proof. vm_compute. auto. Qed.
Print Assumptions C156_ordinal_partial.
(** A char is never an ordinal of an enum of 256 values. *)
Theorem C156_ordinal_refuted : exists w n, 8 <= w /\ 0 < n <= 2 ^ w /\ forall v, 0 <= v < 2 ^ w -> from_ordinal true false w n v = IPanic.
Proof. exists 8, 256. split; [lia |]. split; [lia |]. intros v V. unfold from_ordinal, wval. cbn [andb]. change (256 mod 2 ^ 8) with 0. destruct (0 <=? v) eqn:Q; [reflexivity | lia]. Qed.
Print Assumptions C156_ordinal_refuted.
