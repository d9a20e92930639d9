(** C57 and C58: reading, writing and initialising the members of a bitstruct. *)
From Coq Require Import ZArith List Bool Lia.
From Verif Require Import BitAccModel BitAccSpec BitAccProofs BitAccProofs2 BitAccProofs3 BitAccProofs4.
Import ListNotations.
Open Scope Z_scope.

(** *** Integer containers, of either byte order. *)
(** Reading gives the value the member's bits stand for. *)
Theorem C57_int_read : forall bits swap x f, 0 <= bits -> bits mod 8 = 0 -> 0 <= x < 2 ^ bits -> fits bits f ->
  extract bits swap x f = value_of f (field (int_number bits swap x) f).
Proof. intros. apply extract_int; auto. Qed.
Print Assumptions C57_int_read.
(** Writing replaces the member's bits and no others. *)
Theorem C57_int_write : forall bits swap x f v, 0 <= bits -> bits mod 8 = 0 -> 0 <= x < 2 ^ bits -> fits bits f -> 0 <= v ->
  0 <= assign bits swap x f v < 2 ^ bits /\ replaced (int_number bits swap x) f v (int_number bits swap (assign bits swap x f v)).
Proof. intros. apply assign_int; auto. Qed.
Print Assumptions C57_int_write.
(** So the member reads back as the value cut to its bits, and members apart from it read as before. *)
Theorem C57_int_read_back : forall bits swap x f v, 0 <= bits -> bits mod 8 = 0 -> 0 <= x < 2 ^ bits -> fits bits f -> 0 <= v ->
  extract bits swap (assign bits swap x f v) f = value_of f (v mod 2 ^ len f).
Proof.
  intros bits swap x f v B M X F V. destruct (assign_int bits swap B M x f v F X V) as [R S]. rewrite extract_int by auto.
  f_equal. eapply field_of_replaced; [apply F|exact S].
Qed.
Print Assumptions C57_int_read_back.
Theorem C57_int_others : forall bits swap x f g v, 0 <= bits -> bits mod 8 = 0 -> 0 <= x < 2 ^ bits -> fits bits f -> fits bits g -> apart f g -> 0 <= v ->
  extract bits swap (assign bits swap x f v) g = extract bits swap x g.
Proof.
  intros bits swap x f g v B M X F G A V. destruct (assign_int bits swap B M x f v F X V) as [R S]. rewrite !extract_int by auto.
  f_equal. eapply field_of_other; [apply F|apply G|exact A|exact S].
Qed.
Print Assumptions C57_int_others.
(** A value that fits in the bits reads back as it was. *)
Theorem C57_int_round_trip : forall bits swap x f v, 0 <= bits -> bits mod 8 = 0 -> 0 <= x < 2 ^ bits -> fits bits f ->
  0 <= v < 2 ^ f_width f -> (if f_signed f then - 2 ^ (len f - 1) <= signed (f_width f) v < 2 ^ (len f - 1) else v < 2 ^ len f) ->
  extract bits swap (assign bits swap x f v) f = v.
Proof.
  intros bits swap x f v B M X F V H. rewrite C57_int_read_back by (auto; lia). destruct F as (F1 & F2 & F3 & _). unfold value_of.
  assert (P : 0 < 2 ^ (len f - 1)) by (apply pow_pos; unfold len; lia). assert (E : 2 ^ len f = 2 * 2 ^ (len f - 1)) by (rewrite <- Z.pow_succ_r by (unfold len; lia); f_equal; lia).
  destruct (f_signed f); [|apply Z.mod_small; lia].
  assert (W : 0 < f_width f) by (unfold len in *; lia). assert (EW : 2 ^ f_width f = 2 ^ len f * 2 ^ (f_width f - len f)) by (rewrite <- Z.pow_add_r by (unfold len in *; lia); f_equal; lia).
  assert (S : signed (len f) (v mod 2 ^ len f) = signed (f_width f) v).
  { assert (D : v mod 2 ^ len f = signed (f_width f) v mod 2 ^ len f).
    { unfold signed. destruct (v <? _); [reflexivity|]. rewrite EW. replace (v - 2 ^ len f * 2 ^ (f_width f - len f)) with (v + (- 2 ^ (f_width f - len f)) * 2 ^ len f) by ring.
      rewrite Z.mod_add by lia. reflexivity. }
    rewrite D. set (s := signed (f_width f) v) in *. unfold signed. destruct (Z.lt_ge_cases s 0) as [L|L].
    - replace (s mod 2 ^ len f) with (s + 2 ^ len f) by (symmetry; rewrite <- (Z.mod_add s 1) by lia; rewrite Z.mul_1_l; apply Z.mod_small; lia).
      destruct (_ <? _) eqn:Q; lia.
    - rewrite Z.mod_small by lia. destruct (_ <? _) eqn:Q; lia. }
  rewrite S. unfold signed. destruct (v <? _); [apply Z.mod_small; lia|]. replace (v - 2 ^ f_width f) with (v + (-1) * 2 ^ f_width f) by lia.
  rewrite Z.mod_add by lia. apply Z.mod_small; lia.
Qed.
Print Assumptions C57_int_round_trip.
(** bitstruct : uint { uint d : 0..4; int a : 5..22; uint c : 23..31; } with a = -15. *)
Definition a_5_22 : Field := mkField 5 22 32 true false.
Definition c_23_31 : Field := mkField 23 31 32 false false.
Example C57_int_case : fits 32 a_5_22 /\ fits 32 c_23_31 /\ apart a_5_22 c_23_31 /\
  (let x := assign 32 true 0 a_5_22 (2 ^ 32 - 15) in extract 32 true x a_5_22 = 2 ^ 32 - 15 /\ extract 32 true (assign 32 true x c_23_31 300) a_5_22 = 2 ^ 32 - 15 /\
   extract 32 true (assign 32 true x c_23_31 300) c_23_31 = 300).
Proof. unfold fits, apart, len. cbn. repeat split; try lia; discriminate. Qed.
(** Refuted in a designated initialiser of a struct around the bitstruct: for a bitstruct of the other byte order the
    member is written as if it were of this one.  uint x : 0..15 of a big-endian bitstruct : uint, set to 0x1234, reads as 0. *)
Theorem C57_nested_init_refuted : exists f v, fits 32 f /\ extract 32 true (initialize_nested 32 true 0 f v) f <> extract 32 true (assign 32 true 0 f v) f /\
  extract 32 true (initialize_nested 32 true 0 f v) f = 0.
Proof. exists (mkField 0 15 32 false false), 4660. split; [unfold fits, len; cbn; repeat split; try lia; discriminate|]. vm_compute. split; [discriminate|reflexivity]. Qed.
Print Assumptions C57_nested_init_refuted.

(** *** Arrays of char. *)
(** Reading is right for every member: in an array of the other byte order, if its size is at most 8 or a power of two. *)
Theorem C57_array_read_partial : forall swap m f, bytes m -> in_array m f -> (swap = true -> 8 < len f -> is_power_of_two (len f) = true) ->
  extract_array 1 swap m f = Some (value_of f (if f_bool f then field (of_bytes m) f else ordered swap f (field (of_bytes m) f))).
Proof. exact extract_array_ok. Qed.
Print Assumptions C57_array_read_partial.
(** Writing is right only for bools and for members that end with a byte or lie inside the first one. *)
Theorem C57_array_write_partial : forall swap m f v, bytes m -> in_array m f -> (swap = true -> 8 < len f -> is_power_of_two (len f) = true) ->
  f_bool f = true \/ writable f -> value_ok f v ->
  exists m', update_array 1 swap m f v = Some m' /\ length m' = length m /\ bytes m' /\ replaced (of_bytes m) f (written swap f v) (of_bytes m').
Proof. exact update_array_ok. Qed.
Print Assumptions C57_array_write_partial.
(** For these members, what is written is read back, and the others are left alone. *)
Theorem C57_array_read_back_partial : forall swap m f v, bytes m -> in_array m f -> (swap = true -> 8 < len f -> is_power_of_two (len f) = true) ->
  f_bool f = true \/ writable f -> value_ok f v ->
  exists m', update_array 1 swap m f v = Some m' /\ extract_array 1 swap m' f = Some (value_of f (v mod 2 ^ len f)) /\
  forall g, in_array m g -> apart f g -> (swap = true -> 8 < len g -> is_power_of_two (len g) = true) -> extract_array 1 swap m' g = extract_array 1 swap m g.
Proof.
  intros swap m f v B HI P HW HV. destruct (update_array_ok swap m f v B HI P HW HV) as (m' & A1 & A2 & A3 & A4).
  exists m'. split; [exact A1|]. pose proof (in_array_length m m' f A2 HI) as HI'. pose proof HI as ((F1 & F2 & F3 & F4) & W1 & W2). split.
  - rewrite extract_array_ok by auto. do 2 f_equal. rewrite (field_of_replaced _ f _ _ F1 A4). unfold written. destruct (f_bool f); [reflexivity|].
    set (u := v mod 2 ^ len f). assert (U : 0 <= u < 2 ^ len f) by (apply mod_range; unfold len; lia).
    assert (M8 : swap = true -> 8 < len f -> len f mod 8 = 0) by (intros; apply power8; [lia|auto]).
    rewrite Z.mod_small by (apply ordered_range; auto).
    unfold ordered. destruct (swap && (8 <? len f)) eqn:E; [|reflexivity]. apply andb_true_iff in E. destruct E as [E1 E2]. apply Z.ltb_lt in E2. specialize (M8 E1 E2).
    set (n := Z.to_nat (len f / 8)). assert (L : n = length (rev (bytes_of n u))) by (rewrite rev_length, bytes_of_length; reflexivity).
    rewrite L at 1. rewrite bytes_of_of by (apply bytes_rev, bytes_of_bytes). rewrite rev_involutive, of_bytes_of. unfold n. rewrite bits8 by (unfold len in *; lia || auto). apply Z.mod_small; auto.
  - intros g HG A PG. pose proof (in_array_length m m' g A2 HG) as HG'. rewrite !extract_array_ok by auto. pose proof HG as ((G1 & _) & _).
    rewrite (field_of_other _ f g _ _ F1 G1 A A4). reflexivity.
Qed.
Print Assumptions C57_array_read_back_partial.
Example C57_array_case : in_array [0; 0; 0] (mkField 4 15 16 true false) /\ writable (mkField 4 15 16 true false) /\
  update_array 1 false [255; 255; 255] (mkField 4 15 16 true false) (2 ^ 16 - 1000) = Some [143; 193; 255] /\
  extract_array 1 false [143; 193; 255] (mkField 4 15 16 true false) = Some (2 ^ 16 - 1000) /\
  update_array 1 true [0; 0; 0] (mkField 8 23 16 false false) 4660 = Some [0; 18; 52] /\ extract_array 1 true [0; 18; 52] (mkField 8 23 16 false false) = Some 4660.
Proof. unfold in_array, fits, writable, len. cbn. repeat split; try lia; try discriminate. Qed.
(** Refuted: bitstruct : char[3] { int a : 0..2; ... }: after a = 3, a reads 0.  The compiler's own test
    test/test_suite/bitstruct/bitstruct_arrays.c3t, lines 340-343, records the code: the result of the "or" is not stored. *)
Theorem C57_array_lost_value_refuted : exists m f v m', bytes m /\ in_array m f /\ value_ok f v /\ v < 2 ^ len f /\
  update_array 1 false m f v = Some m' /\ extract_array 1 false m' f = Some 0 /\ v <> 0.
Proof.
  exists [26; 30; 0], (mkField 0 2 32 true false), 3, [24; 30; 0]. split; [repeat constructor; lia|]. unfold in_array, fits, value_ok, len. cbn.
  repeat split; try lia; discriminate.
Qed.
Print Assumptions C57_array_lost_value_refuted.
(** Refuted: bitstruct : char[2] { char a : 9..10; bool b : 15; }: writing a clears b. *)
Theorem C57_array_lost_neighbour_refuted : exists m f g v m', bytes m /\ in_array m f /\ in_array m g /\ apart f g /\ value_ok f v /\
  update_array 1 false m f v = Some m' /\ extract_array 1 false m g = Some 1 /\ extract_array 1 false m' g = Some 0.
Proof.
  exists [0; 128], (mkField 9 10 8 false false), (mkField 15 15 8 false true), 1, [0; 2]. split; [repeat constructor; lia|]. unfold in_array, fits, value_ok, apart, len. cbn.
  repeat split; try lia; discriminate.
Qed.
Print Assumptions C57_array_lost_neighbour_refuted.
(** Refuted: a member of 12 bits in an array of the other byte order stops the compiler on an assertion. *)
Theorem C57_array_assert_refuted : exists m f, bytes m /\ in_array m f /\ extract_array 1 true m f = None /\ update_array 1 true m f 0 = None.
Proof.
  exists [0; 0], (mkField 0 11 16 false false). split; [repeat constructor; lia|]. unfold in_array, fits, len. cbn. repeat split; try lia; discriminate.
Qed.
Print Assumptions C57_array_assert_refuted.
(** Refuted for arrays of wider integers, which the compiler accepts: byte i is taken to be element i.
    bitstruct : int[4] { uint x : 96..127; } reads and writes outside of the 16 bytes. *)
Theorem C57_wide_array_refuted : exists m f, length m = 16%nat /\ bytes m /\ in_array m f /\
  extract_array 4 false m f = None /\ update_array 4 false m f 1 = None /\ const_array false 4 [(f, 1)] = None.
Proof.
  exists (repeat 0 16), (mkField 96 127 32 false false). split; [reflexivity|]. split; [repeat constructor; lia|]. unfold in_array, fits, len. cbn.
  repeat split; try lia; discriminate.
Qed.
Print Assumptions C57_wide_array_refuted.

(** *** C58: constants. *)
(** With an integer container, a constant initialiser gives the container the same bits as the assignments at run time,
    and each member has its value. *)
Theorem C58_int_same : forall bits swap inits, 0 <= bits -> Forall (fun p => fits bits (fst p) /\ 0 <= snd p) inits ->
  ForallOrdPairs (fun p q => apart (fst p) (fst q)) inits -> const_init bits swap inits = initialize bits swap inits.
Proof. exact const_is_initialize. Qed.
Print Assumptions C58_int_same.
Theorem C58_int_values : forall bits swap inits, 0 <= bits -> bits mod 8 = 0 -> Forall (fun p => fits bits (fst p) /\ 0 <= snd p) inits ->
  ForallOrdPairs (fun p q => apart (fst p) (fst q)) inits ->
  forall f v, In (f, v) inits -> extract bits swap (const_init bits swap inits) f = value_of f (v mod 2 ^ len f).
Proof.
  intros bits swap inits B M HF HA f v Hf. destruct (const_int_fields bits swap inits B M HF HA) as [R C].
  rewrite extract_int; auto; [rewrite (C f v Hf); reflexivity|]. rewrite Forall_forall in HF. apply (HF _ Hf).
Qed.
Print Assumptions C58_int_values.
(** With an array of char, each member has its value. *)
Theorem C58_array_values_partial : forall swap n inits, Forall (good_init swap n) inits -> ForallOrdPairs (fun p q => apart (fst p) (fst q)) inits ->
  exists m, const_array swap n inits = Some m /\ length m = n /\ bytes m /\ forall f v, In (f, v) inits -> field (of_bytes m) f = written swap f v mod 2 ^ len f.
Proof. exact const_array_fields. Qed.
Print Assumptions C58_array_values_partial.
Example C58_case : const_init 32 false [(mkField 0 4 32 false false, 31); (a_5_22, 2 ^ 32 - 15); (c_23_31, 127)] = 1073741375 /\
  const_array false 3 [(mkField 0 2 32 true false, 2); (mkField 3 8 32 true false, 3); (mkField 9 18 32 true false, 15)] = Some [26; 30; 0] /\
  good_init false 3 (mkField 3 8 32 true false, 3) /\ apart (mkField 0 2 32 true false) (mkField 3 8 32 true false).
Proof.
  split; [vm_compute; reflexivity|]. split; [vm_compute; reflexivity|]. unfold good_init, in_array, fits, value_ok, apart, len. cbn. repeat split; try lia; discriminate.
Qed.
(** Refuted for arrays: the same initialiser computed at run time gives other bytes. *)
Theorem C58_array_same_refuted : exists n inits, Forall (good_init false n) inits /\ ForallOrdPairs (fun p q => apart (fst p) (fst q)) inits /\
  const_array false n inits <> init_array 1 false n inits.
Proof.
  exists 3%nat, [(mkField 0 2 32 true false, 2)]. split; [|split; [repeat constructor|vm_compute; discriminate]].
  constructor; [|constructor]. unfold good_init, in_array, fits, value_ok, len. cbn. repeat split; try lia; discriminate.
Qed.
Print Assumptions C58_array_same_refuted.
(** Refuted with @overlap: a constant has both values or-ed together, at run time the later one is kept. *)
Theorem C58_overlap_refuted : exists bits inits, Forall (fun p => fits bits (fst p) /\ 0 <= snd p) inits /\ const_init bits false inits <> initialize bits false inits.
Proof.
  exists 8, [(mkField 0 3 8 false false, 1); (mkField 0 3 8 false false, 2)]. split; [|vm_compute; discriminate].
  repeat constructor; unfold len; cbn; try lia; discriminate.
Qed.
Print Assumptions C58_overlap_refuted.
