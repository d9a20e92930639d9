(** C21, C22, C23: switch statements. *)
From Coq Require Import ZArith Bool List Lia ZifyBool.
From Verif Require Import Mach Word Int128Model Int128Spec CmpModel CmpSpec SwitchModel SwitchSpec SwitchProofs.
Import ListNotations.
Open Scope Z_scope.

(** * C21: the three lowerings *)
(** The compare chain runs the body of the first case for the value, else [default]; cases may overlap and need not be constant. *)
Theorem C21_compare_chain_partial : forall t cs v, enum_ok t -> Forall (case_ok t) cs -> default_last cs -> is_bits (lowered t) v ->
  exists b, run_chain (lowered t) cs v = Runs b /\ does (lowered t) cs (bits_value (lowered t) v) b.
Proof. exact chain_ok. Qed.
Print Assumptions C21_compare_chain_partial.
(** The LLVM switch does so for disjoint constant cases. *)
Theorem C21_llvm_switch : forall t cs v fuel, enum_ok t -> Forall (case_ok t) cs -> Forall constant cs -> disjoint (lowered t) cs -> Forall (fuel_for fuel) cs -> is_bits (lowered t) v ->
  exists b, run_llvm_switch fuel (lowered t) cs v = Runs b /\ does (lowered t) cs (bits_value (lowered t) v) b.
Proof. exact llvm_switch_ok. Qed.
Print Assumptions C21_llvm_switch.
(** The jump table does so when the values are close together and every case with values runs the body of one. *)
Theorem C21_jump_table_partial : forall t cs v, enum_ok t -> Forall (case_ok t) cs -> Forall constant cs -> Exists is_value cs -> disjoint (lowered t) cs -> small_span (lowered t) cs ->
  lands cs -> default_last cs -> one_default cs -> is_bits (lowered t) v ->
  exists b, run_jump_table (lowered t) cs v = Runs b /\ does (lowered t) cs (bits_value (lowered t) v) b.
Proof. exact jump_ok. Qed.
Print Assumptions C21_jump_table_partial.
(** What a switch does is determined: so the three agree. *)
Theorem C21_determined : forall k cs z b b', one_default cs -> does k cs z b -> does k cs z b' -> b = b'.
Proof. intros k cs z b b' H. exact (does_det k cs z H b b'). Qed.
Print Assumptions C21_determined.
Theorem C21_agree_partial : forall t cs v fuel, enum_ok t -> Forall (case_ok t) cs -> Forall constant cs -> Exists is_value cs -> disjoint (lowered t) cs -> small_span (lowered t) cs ->
  lands cs -> default_last cs -> one_default cs -> Forall (fuel_for fuel) cs -> is_bits (lowered t) v ->
  run_jump_table (lowered t) cs v = run_chain (lowered t) cs v /\ run_llvm_switch fuel (lowered t) cs v = run_chain (lowered t) cs v.
Proof.
  intros t cs v fuel HE HF HK HX HD HS HL HDf HO HU Hv.
  destruct (chain_ok t cs v HE HF HDf Hv) as (b1 & E1 & D1). destruct (jump_ok t cs v HE HF HK HX HD HS HL HDf HO Hv) as (b2 & E2 & D2). destruct (llvm_switch_ok t cs v fuel HE HF HK HD HU Hv) as (b3 & E3 & D3).
  rewrite E1, E2, E3, (does_det _ _ _ HO _ _ D2 D1), (does_det _ _ _ HO _ _ D3 D1). split; reflexivity.
Qed.
Print Assumptions C21_agree_partial.

(** Cases of type [int]: -3..-1 falls through to 4; 7 has a body; default has one. *)
Definition num (k : IKind) (z : Z) : Const := CInt (mkInt (mk128 (z / 2 ^ 64 mod 2 ^ 64) (z mod 2 ^ 64)) k).
Definition sample : list Case :=
  [mkCase (Value (num I32 (-3)) (Some (num I32 (-1)))) false; mkCase (Value (num I32 4) None) true; mkCase Default true; mkCase (Value (num I32 7) None) true].
Example C21_example : Forall (case_ok (SInt I32)) sample /\ default_last sample /\ lands sample /\ one_default sample /\ small_span I32 sample /\ disjoint I32 sample /\
  run_jump_table I32 sample (2 ^ 32 - 2) = Runs (At 1) /\ run_chain I32 sample 7 = Runs (At 3) /\ run_llvm_switch 10 I32 sample 5 = Runs (At 2).
Proof.
  assert (forall i c, nth_error sample i = Some c -> (i < 4)%nat) as L by (intros i c H; apply (proj1 (nth_error_Some sample i)); congruence).
  assert (forall i c, nth_error sample i = Some c -> (i = 0%nat /\ forall x, covers I32 c x <-> -3 <= x <= -1) \/ (i = 1%nat /\ forall x, covers I32 c x <-> x = 4) \/ (i = 2%nat /\ forall x, ~ covers I32 c x) \/ (i = 3%nat /\ forall x, covers I32 c x <-> x = 7)) as CV.
  { intros i c H. pose proof (L i c H). destruct i as [|[|[|[|i]]]]; [| | | |lia]; injection H as <-; unfold covers, num; cbn [label number];
      repeat match goal with |- context [value ?x] => let y := eval vm_compute in (value x) in change (value x) with y end; [left|right; left|right; right; left|right; right; right]; (split; [reflexivity|]); intros x; lia. }
  split; [|split; [|split; [|split; [|split; [|split]]]]].
  - repeat (apply Forall_cons; [vm_compute; repeat split; discriminate|]). apply Forall_nil.
  - intros i c H E B. pose proof (L i c H). destruct i as [|[|[|[|i]]]]; [| | | |lia]; injection H as <-; discriminate.
  - intros i c b H V F. pose proof (L i c H). destruct i as [|[|[|[|i]]]]; [| | | |lia]; injection H as <-.
    + exists 1%nat. eexists. split; [|split; [reflexivity|exact I]]. apply (falls_det sample 0 b F). eapply Falls_next; [reflexivity|reflexivity|]. eapply Falls_body; reflexivity.
    + exists 1%nat. eexists. split; [|split; [reflexivity|exact I]]. apply (falls_det sample 1 b F). eapply Falls_body; reflexivity.
    + destruct V.
    + exists 3%nat. eexists. split; [|split; [reflexivity|exact I]]. apply (falls_det sample 3 b F). eapply Falls_body; reflexivity.
  - intros i j a b Ha Hb La Lb. pose proof (L i a Ha). pose proof (L j b Hb). destruct i as [|[|[|[|i]]]]; [| | | |lia]; injection Ha as <-; try discriminate;
    destruct j as [|[|[|[|j]]]]; try lia; injection Hb as <-; discriminate.
  - intros i j a b x y Ha Hb Cx Cy. destruct (CV i a Ha) as [[_ A]|[[_ A]|[[_ A]|[_ A]]]]; apply A in Cx; destruct (CV j b Hb) as [[_ B]|[[_ B]|[[_ B]|[_ B]]]]; apply B in Cy; try contradiction; cbn; lia.
  - intros i j a b x Ha Hb Cx Cy. destruct (CV i a Ha) as [[E A]|[[E A]|[[E A]|[E A]]]]; apply A in Cx; destruct (CV j b Hb) as [[E' B]|[[E' B]|[[E' B]|[E' B]]]]; apply B in Cy; try contradiction; lia.
  - vm_compute. repeat split; reflexivity.
Qed.

(** A [default] without a body before a case with one: the compare chain and the jump table leave the switch, the LLVM switch runs the case. *)
Theorem C21_default_refuted : exists cs v, Forall (case_ok (SInt I32)) cs /\ Forall constant cs /\ one_default cs /\ is_bits I32 v /\
  run_chain I32 cs v = Runs Exit /\ run_jump_table I32 cs v = Runs Exit /\ run_llvm_switch 10 I32 cs v = Runs (At 1).
Proof.
  exists [mkCase Default false; mkCase (Value (num I32 1) None) true], 5. split; [|split; [|split; [|split]]].
  - repeat (apply Forall_cons; [vm_compute; repeat split; discriminate|]). apply Forall_nil.
  - repeat (apply Forall_cons; [exact I|]). apply Forall_nil.
  - intros [|[|[|i]]] [|[|[|j]]] a b Ha Hb La Lb; try discriminate; try reflexivity; injection Ha as <-; injection Hb as <-; discriminate.
  - vm_compute. split; [discriminate|reflexivity].
  - vm_compute. repeat split; reflexivity.
Qed.
Print Assumptions C21_default_refuted.
(** The jump table: a case that runs into [default], with no value between the cases left over, jumps to a block that is not a destination of the branch. *)
Theorem C21_jump_table_refuted : exists cs v, Forall (case_ok (SInt I32)) cs /\ Forall constant cs /\ check_switch (SInt I32) cs true = Accepted true false true /\ is_bits I32 v /\
  run_jump_table I32 cs v = Undefined /\ run_chain I32 cs v = Runs (At 2).
Proof.
  exists [mkCase (Value (num I32 1) None) true; mkCase (Value (num I32 2) None) false; mkCase Default true], 2. split; [|split; [|split; [|split]]].
  - repeat (apply Forall_cons; [vm_compute; repeat split; discriminate|]). apply Forall_nil.
  - repeat (apply Forall_cons; [exact I|]). apply Forall_nil.
  - vm_compute. reflexivity.
  - vm_compute. split; [discriminate|reflexivity].
  - vm_compute. split; reflexivity.
Qed.
Print Assumptions C21_jump_table_refuted.
(** '@jump' on [ichar] with the cases -100 and 100 passes the size check, and the compiler then stops on an assertion. *)
Theorem C21_jump_span_refuted : exists cs, Forall (case_ok (SInt I8)) cs /\ Forall constant cs /\ check_switch (SInt I8) cs true = Accepted true false true /\
  forall v, run_jump_table I8 cs v = Crash.
Proof.
  exists [mkCase (Value (num I8 (-100)) None) true; mkCase (Value (num I8 100) None) true; mkCase Default true]. split; [|split; [|split]].
  - repeat (apply Forall_cons; [vm_compute; repeat split; discriminate|]). apply Forall_nil.
  - repeat (apply Forall_cons; [exact I|]). apply Forall_nil.
  - vm_compute. reflexivity.
  - intros v. cbv. reflexivity.
Qed.
Print Assumptions C21_jump_span_refuted.

(** * C22: duplicate cases *)
(** A case whose first value is in an earlier constant case is an error. *)
Theorem C22_start_in_earlier_partial : forall t cs jump i j a b f to, Forall (case_ok t) cs -> (i < j)%nat -> nth_error cs i = Some a -> nth_error cs j = Some b ->
  is_value a -> label b = Value f to -> covers (lowered t) a (number f) -> check_switch t cs jump = Rejected.
Proof. exact start_seen. Qed.
Print Assumptions C22_start_in_earlier_partial.
(** Any overlap is found when the cases are in ascending order. *)
Theorem C22_ascending_partial : forall t cs jump i j a b z, Forall (case_ok t) cs -> Forall constant cs -> ascending cs -> i <> j -> nth_error cs i = Some a -> nth_error cs j = Some b ->
  covers (lowered t) a z -> covers (lowered t) b z -> check_switch t cs jump = Rejected.
Proof.
  intros t cs jump i j a b z HF HK HA N Ha Hb Ca Cb. destruct (overlap_start t cs i j a b z HF HK Ha Hb Ca Cb) as (f & to & f' & to' & L1 & L2 & H1 & H2).
  destruct (Nat.lt_gt_cases i j) as [D _]. destruct (D N) as [L|L].
  - apply (start_seen t cs jump i j a b f' to' HF L Ha Hb); [unfold is_value; rewrite L1; exact I|exact L2|]. apply H1. exact (HA i j a b f to f' to' L Ha Hb L1 L2).
  - apply (start_seen t cs jump j i b a f to HF L Hb Ha); [unfold is_value; rewrite L2; exact I|exact L1|]. apply H2. exact (HA j i b a f' to' f to L Hb Ha L2 L1).
Qed.
Print Assumptions C22_ascending_partial.
(** Without ranges: a value in two cases is an error, in any order. *)
Theorem C22_single_values : forall t cs jump i j a b z, Forall (case_ok t) cs -> Forall single cs -> i <> j -> nth_error cs i = Some a -> nth_error cs j = Some b ->
  covers (lowered t) a z -> covers (lowered t) b z -> check_switch t cs jump = Rejected.
Proof.
  intros t cs jump i j a b z HF HS N Ha Hb Ca Cb. rewrite Forall_forall in HS. pose proof (HS a (nth_error_In _ _ Ha)) as Sa. pose proof (HS b (nth_error_In _ _ Hb)) as Sb.
  assert (Forall constant cs) as HK by (apply Forall_forall; intros c I; specialize (HS c I); unfold single, constant in *; destruct (label c); auto).
  destruct (overlap_start t cs i j a b z HF HK Ha Hb Ca Cb) as (f & to & f' & to' & L1 & L2 & H1 & H2).
  assert (number f = number f') as E. { unfold covers, single in *. rewrite L1, L2 in *. destruct to; [destruct Sa|]. destruct to'; [destruct Sb|]. lia. }
  destruct (Nat.lt_gt_cases i j) as [D _]. destruct (D N) as [L|L].
  - apply (start_seen t cs jump i j a b f' to' HF L Ha Hb); [unfold is_value; rewrite L1; exact I|exact L2|]. apply H1. lia.
  - apply (start_seen t cs jump j i b a f to HF L Hb Ha); [unfold is_value; rewrite L2; exact I|exact L1|]. apply H2. lia.
Qed.
Print Assumptions C22_single_values.
(** A second [default] is an error. *)
Theorem C22_second_default : forall t cs jump, ~ one_default cs -> check_switch t cs jump = Rejected.
Proof. intros t cs jump N. unfold check_switch. rewrite second_default_check; [reflexivity|discriminate|auto]. Qed.
Print Assumptions C22_second_default.
(** Cases without overlap are not refused. *)
Theorem C22_no_false_alarm : forall k cs, Forall (case_ok (SInt k)) cs -> disjoint k cs -> one_default cs -> check_switch (SInt k) cs false <> Rejected.
Proof.
  intros k cs HF HD HO. unfold check_switch. destruct (check_cases_total (SInt k) cs [] false (mkChecks false false 0 None None) HF HD HO ltac:(discriminate)) as ([s hd] & E). rewrite E. cbn [is_enum andb]. discriminate.
Qed.
Print Assumptions C22_no_false_alarm.
Definition overlapping : list Case := [mkCase (Value (num I32 5) None) true; mkCase (Value (num I32 1) (Some (num I32 9))) true].
(** "case 5: case 1..9:" is accepted, and the LLVM code has the value 5 twice; with '@jump' the table is filled out of bounds. *)
Theorem C22_refuted : exists cs z a b, Forall (case_ok (SInt I32)) cs /\ Forall constant cs /\ nth_error cs 0 = Some a /\ nth_error cs 1 = Some b /\ covers I32 a z /\ covers I32 b z /\
  check_switch (SInt I32) cs false = Accepted false false false /\ check_switch (SInt I32) cs true = Accepted false false true /\
  run_llvm_switch 10 I32 cs z = InvalidIR /\ run_jump_table I32 cs z <> run_chain I32 cs z.
Proof.
  exists overlapping, 5, (mkCase (Value (num I32 5) None) true), (mkCase (Value (num I32 1) (Some (num I32 9))) true). split; [|split].
  - repeat (apply Forall_cons; [vm_compute; repeat split; discriminate|]). apply Forall_nil.
  - repeat (apply Forall_cons; [exact I|]). apply Forall_nil.
  - vm_compute. repeat split; discriminate.
Qed.
Print Assumptions C22_refuted.
Example C22_example : check_switch (SInt I32) (rev overlapping) false = Rejected /\ check_switch (SInt I32) sample false = Accepted true false false /\ check_switch (SEnum I32 4) [mkCase (Value (CEnum 1) None) true; mkCase (Value (CEnum 1) None) true] false = Rejected.
Proof. vm_compute. repeat split; reflexivity. Qed.

(** * C23: enum switches *)
(** With constant disjoint cases and no range of more than 257 values, a switch without [default] is accepted exactly when every value has a case. *)
Theorem C23_exhaustive_partial : forall k n cs, enum_ok (SEnum k n) -> Forall (case_ok (SEnum k n)) cs -> Forall constant cs -> Forall narrow cs -> no_default cs -> disjoint k cs ->
  (forall o, 0 <= o < n -> exists c, In c cs /\ covers k c o) <-> check_switch (SEnum k n) cs false <> Rejected.
Proof. exact exhaustive_ok. Qed.
Print Assumptions C23_exhaustive_partial.
Example C23_example : let cs := [mkCase (Value (CEnum 2) (Some (CEnum 3))) true; mkCase (Value (CEnum 0) None) false; mkCase (Value (CEnum 1) None) true] in
  Forall (case_ok (SEnum I32 4)) cs /\ Forall narrow cs /\ check_switch (SEnum I32 4) cs false = Accepted true false false /\ check_switch (SEnum I32 5) cs false = Rejected.
Proof.
  split; [|split].
  - repeat (apply Forall_cons; [vm_compute; repeat split; discriminate|]). apply Forall_nil.
  - repeat (apply Forall_cons; [vm_compute; discriminate|]). apply Forall_nil.
  - vm_compute. split; reflexivity.
Qed.
(** Overlapping cases are counted twice: "case B: case A..C:" on an enum A, B, C, D is taken to be exhaustive, without a case for D. *)
Theorem C23_overlap_refuted : exists cs, Forall (case_ok (SEnum I32 4)) cs /\ Forall constant cs /\ no_default cs /\ check_switch (SEnum I32 4) cs false = Accepted true false false /\
  ~ exists c, In c cs /\ covers I32 c 3.
Proof.
  exists [mkCase (Value (CEnum 1) None) true; mkCase (Value (CEnum 0) (Some (CEnum 2))) true]. split; [|split; [|split; [|split]]].
  - repeat (apply Forall_cons; [vm_compute; repeat split; discriminate|]). apply Forall_nil.
  - repeat (apply Forall_cons; [exact I|]). apply Forall_nil.
  - repeat (apply Forall_cons; [discriminate|]). apply Forall_nil.
  - vm_compute. reflexivity.
  - intros (c & [<-|[<-|[]]] & C); cbn in C; lia.
Qed.
Print Assumptions C23_overlap_refuted.
(** A case that is computed when the program runs counts as one value. *)
Theorem C23_computed_refuted : exists cs, Forall (case_ok (SEnum I32 2)) cs /\ no_default cs /\ check_switch (SEnum I32 2) cs false = Accepted true true false /\
  ~ exists c, In c cs /\ covers I32 c 1.
Proof.
  exists [mkCase (Value (CEnum 0) None) true; mkCase (Dynamic 0) true]. split; [|split; [|split]].
  - repeat (apply Forall_cons; [vm_compute; repeat split; discriminate|]). apply Forall_nil.
  - repeat (apply Forall_cons; [discriminate|]). apply Forall_nil.
  - vm_compute. reflexivity.
  - intros (c & [<-|[<-|[]]] & C); [cbn in C; lia|vm_compute in C; discriminate].
Qed.
Print Assumptions C23_computed_refuted.
(** After a range of more than 257 values a further range counts as one value: all 300 have a case, and the switch is refused. *)
Theorem C23_wide_refuted : exists cs, Forall (case_ok (SEnum I32 300)) cs /\ Forall constant cs /\ no_default cs /\ disjoint I32 cs /\ check_switch (SEnum I32 300) cs false = Rejected /\
  forall o, 0 <= o < 300 -> exists c, In c cs /\ covers I32 c o.
Proof.
  exists [mkCase (Value (CEnum 0) (Some (CEnum 280))) true; mkCase (Value (CEnum 281) (Some (CEnum 299))) true]. split; [|split; [|split; [|split; [|split]]]].
  - repeat (apply Forall_cons; [vm_compute; repeat split; discriminate|]). apply Forall_nil.
  - repeat (apply Forall_cons; [exact I|]). apply Forall_nil.
  - repeat (apply Forall_cons; [discriminate|]). apply Forall_nil.
  - intros [|[|[|i]]] [|[|[|j]]] a b z Ha Hb Ca Cb; try discriminate; try reflexivity; injection Ha as <-; injection Hb as <-; cbn in Ca, Cb; lia.
  - vm_compute. reflexivity.
  - intros o H. destruct (Z.le_gt_cases o 280); eexists; [split; [left; reflexivity|cbn; lia]|split; [right; left; reflexivity|cbn; lia]].
Qed.
Print Assumptions C23_wide_refuted.
