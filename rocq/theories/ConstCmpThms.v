(** C25 and C60: the comparison of constants, and the choice $switch and constant nextcase make with it. *)
From Coq Require Import ZArith List Bool Lia SpecFloat.
From Verif Require Import Int128Model Int128Spec ConstArrModel ConstArrSpec ConstCmpModel ConstCmpSpec ConstCmpProofs.
Import ListNotations.
Open Scope Z_scope.

(** *** C25: comparison. *)
(** == is equality of the values, for all kinds of constants, when no string has a NUL in it. *)
Theorem C25_equal_partial : forall l r, comparable l r -> no_nul l -> no_nul r -> exists b, const_compare l r OpEQ = Ok b /\ (b = true <-> same l r).
Proof. intros. apply compare_eq_ok; auto. Qed.
Print Assumptions C25_equal_partial.
(** != is the negation of ==, for all but faults. *)
Theorem C25_not_equal_partial : forall l r b, comparable l r -> match l, r with VFault _, _ => False | VEnum t _, VEnum u _ => t = u | _, _ => True end ->
  const_compare l r OpEQ = Ok b -> const_compare l r OpNE = Ok (negb b).
Proof. intros l r b C D E. rewrite compare_ne_ok by auto. rewrite E. reflexivity. Qed.
Print Assumptions C25_not_equal_partial.
(** The orderings of booleans, integers, pointers and enums are one total order. *)
Theorem C25_ordered : forall l r, comparable l r -> match l, r with VBool _, _ | VInt _, _ | VPointer _, _ => True | VEnum t _, VEnum u _ => t = u | _, _ => False end ->
  exists lt eq, const_compare l r OpLT = Ok lt /\ const_compare l r OpEQ = Ok eq /\ const_compare r l OpLT = Ok (negb lt && negb eq) /\ (lt && eq = false) /\
    const_compare l r OpLE = Ok (lt || eq) /\ const_compare l r OpGE = Ok (negb lt) /\ const_compare l r OpGT = Ok (negb (lt || eq)).
Proof. intros. apply compare_order; auto. Qed.
Print Assumptions C25_ordered.
(** Floating-point constants: with a NaN every comparison but != is false; otherwise the orderings are one total order up to the two zeros, that of IEEE. *)
Theorem C25_float_order : forall a b,
  (a = S754_nan \/ b = S754_nan -> forall op, const_compare (VFloat a) (VFloat b) op = Ok match op with OpNE => true | _ => false end) /\
  (a <> S754_nan -> b <> S754_nan ->
   exists lt eq, const_compare (VFloat a) (VFloat b) OpLT = Ok lt /\ const_compare (VFloat a) (VFloat b) OpEQ = Ok eq /\
     const_compare (VFloat b) (VFloat a) OpLT = Ok (negb lt && negb eq) /\ (lt && eq = false) /\ lt = SFltb a b /\
     const_compare (VFloat a) (VFloat b) OpLE = Ok (lt || eq) /\ const_compare (VFloat a) (VFloat b) OpGE = Ok (negb lt) /\
     const_compare (VFloat a) (VFloat b) OpGT = Ok (negb (lt || eq)) /\ const_compare (VFloat a) (VFloat b) OpNE = Ok (negb eq)).
Proof. intros. apply compare_float. Qed.
Print Assumptions C25_float_order.
Example C25_case : let l := VString [97; 98] in let r := VList (CInit (mkArr 2 (IFull [EVal (SInt 97); EVal (SInt 98)]))) in
  comparable l r /\ no_nul l /\ const_compare l r OpEQ = Ok true /\ const_compare l r OpNE = Ok false.
Proof.
  cbv zeta. split; [|split; [|split; vm_compute; reflexivity]].
  - split; [exact I|]. split; [exact I|]. split; [split; cbn; lia|]. repeat constructor; eexists; reflexivity.
  - cbn. intros [H|[H|H]]; lia || contradiction.
Qed.
Example C25_float_case : const_compare (VFloat S754_nan) (VFloat S754_nan) OpEQ = Ok false /\ const_compare (VFloat S754_nan) (VFloat S754_nan) OpNE = Ok true /\
  const_compare (VFloat (S754_zero true)) (VFloat (S754_zero false)) OpEQ = Ok true.
Proof. split; [|split]; vm_compute; reflexivity. Qed.
Example C25_ordered_case : comparable (VEnum 1 3) (VEnum 1 4) /\ const_compare (VEnum 1 3) (VEnum 1 4) OpLT = Ok true.
Proof. split; [repeat split|vm_compute; reflexivity]. Qed.
(** For faults != is ==, and the comparison of faults is folded. *)
Theorem C25_fault_refuted : exists a b, a <> b /\ folds (VFault a) = true /\ const_compare (VFault a) (VFault b) OpNE = Ok false /\ const_compare (VFault a) (VFault a) OpNE = Ok true.
Proof. exists 1, 2. split; [lia|]. split; [|split]; vm_compute; reflexivity. Qed.
Print Assumptions C25_fault_refuted.
(** Strings are compared up to the first NUL. *)
Theorem C25_nul_refuted : exists a b, a <> b /\ folds (VString a) = true /\ const_compare (VString a) (VString b) OpEQ = Ok true /\ const_compare (VBytes b) (VString a) OpEQ = Ok false.
Proof. exists [97; 0; 98], [97; 0; 99]. split; [discriminate|]. split; [|split]; vm_compute; reflexivity. Qed.
Print Assumptions C25_nul_refuted.
(** A string compared with an array that stores a zero stops the compiler. *)
Theorem C25_zero_array_refuted : exists b a, wf a /\ const_compare (VString b) (VList (CInit a)) OpEQ = Crash.
Proof. exists [97; 98], (mkArr 2 (IFull [EZero; EVal (SInt 1)])). split; [split; cbn; lia|vm_compute; reflexivity]. Qed.
Print Assumptions C25_zero_array_refuted.

(** *** C60: $switch. *)
(** The body that runs is that of the first case that covers the value, or of $default, or of the next case with a body; when
    of two cases that cover the value the later is not a range of literals. *)
Theorem C60_switch_partial : forall v its o, switchable v -> Forall (item_for v) its -> no_late_range v its -> ct_switch v its = Ok o -> runs (covers v) its o.
Proof. intros. apply ct_switch_ok; auto. Qed.
Print Assumptions C60_switch_partial.
(** So it is without ranges. *)
Theorem C60_switch_values : forall v its o, switchable v -> Forall (item_for v) its -> (forall i c, is_case its i c -> to c = None) -> ct_switch v its = Ok o -> runs (covers v) its o.
Proof. intros v its o S F N H. apply ct_switch_ok; auto. intros i j c d L C D _ _ _. apply (N j d D). Qed.
Print Assumptions C60_switch_values.
(** The case for a type is the first that it is a subtype of. *)
Theorem C60_switch_type : forall sub v its o, ct_switch_type sub v its = Ok o -> runs (type_hit sub v) its o.
Proof. intros. apply ct_switch_type_ok; auto. Qed.
Print Assumptions C60_switch_type.
(** A $switch is accepted when no case starts inside an earlier one, no range is empty and $default is last. *)
Theorem C60_switch_accepted : forall v its, switchable v -> Forall (item_for v) its -> default_last its ->
  (forall i c a b, is_case its i c -> from c = VInt a -> to c = Some (VInt b) -> value a <= value b) ->
  (forall i j c d, (i < j)%nat -> is_case its i c -> is_case its j d -> ~ covers (from d) c) ->
  exists o, ct_switch v its = Ok o.
Proof.
  intros v its S F D R N. unfold ct_switch. assert (E : (match v with VTypeid _ => Error | _ => ct_cases v its 0 [] None end) = ct_cases v its 0 [] None) by (destruct v; try contradiction; reflexivity).
  rewrite E. destruct (ct_cases_accepts v its 0 [] None S F (Forall_nil _) D) as [p H]; [| |intros; constructor|rewrite H; eexists; reflexivity]; auto.
  intros j c H. specialize (R j c). destruct (to c) as [[]|]; auto. destruct (from c); auto.
Qed.
Print Assumptions C60_switch_accepted.
(** A literal case that starts inside an earlier literal case is rejected. *)
Theorem C60_switch_repeated_partial : forall v its i j c d, switchable v -> Forall (item_for v) its -> (i < j)%nat -> is_case its i c -> is_case its j d ->
  known c = true -> known d = true -> covers (from d) c -> ct_switch v its = Error.
Proof.
  intros v its i j c d S F L C D K1 K2 X. unfold ct_switch. assert (E : (match v with VTypeid _ => Error | _ => ct_cases v its 0 [] None end) = ct_cases v its 0 [] None) by (destruct v; try contradiction; reflexivity).
  rewrite E. rewrite (ct_cases_repeated v its 0 [] None j d S F (Forall_nil _) D K2); [reflexivity|]. right. exists i, c. auto.
Qed.
Print Assumptions C60_switch_repeated_partial.
(** A constant nextcase goes to the first case that covers the value, and is an error when there is none. *)
Theorem C60_nextcase : forall v cs i, Forall (fun c => match c with RConst f t => case_for v (mkCase true f t true) | _ => True end) cs -> nextcase v cs 0 = Ok (Some i) -> first_target v cs i.
Proof. intros v cs i F H. destruct (nextcase_ok v cs 0 i F H) as [_ X]. rewrite Nat.sub_0_r in X. exact X. Qed.
Print Assumptions C60_nextcase.
Theorem C60_nextcase_missing : forall v cs, Forall (fun c => match c with RConst f t => case_for v (mkCase true f t true) | RComputed => False | _ => True end) cs ->
  nextcase v cs 0 = Error <-> forall j f t, nth_error cs j = Some (RConst f t) -> ~ covers v (mkCase true f t true).
Proof. intros. apply nextcase_error; auto. Qed.
Print Assumptions C60_nextcase_missing.

Definition int (z : Z) : Value := VInt (const I32 z).
Definition at_5 : list Item := [ICase (mkCase true (int 1) (Some (int 3)) true); ICase (mkCase true (int 5) None false); ICase (mkCase false (int 9) None true); IDefault true].
Lemma int_for : forall z, -100 <= z <= 100 -> proper (int z).
Proof. intros z Z. unfold int, proper. cbn [ival const]. unfold wf128, Word.word, const. cbn. assert (0 <= z mod 340282366920938463463374607431768211456 < 340282366920938463463374607431768211456) by (apply Z.mod_pos_bound; lia).
  split; [split; [apply Z.div_pos; lia|apply Z.div_lt_upper_bound; lia]|apply Z.mod_pos_bound; lia]. Qed.
Example C60_case : Forall (item_for (int 5)) at_5 /\ no_late_range (int 5) at_5 /\ ct_switch (int 5) at_5 = Ok (Some 2%nat).
Proof.
  assert (C : forall a b, -100 <= a <= 100 -> -100 <= b <= 100 -> comparable (int a) (int b)) by (intros a b A B; split; [apply int_for; auto|]; split; [apply int_for; auto|exact I]).
  split; [|split; [|vm_compute; reflexivity]].
  - unfold at_5. repeat apply Forall_cons; try apply Forall_nil; cbn [item_for]; try exact I; (split; [apply C; lia|]); (split; [exact I|]); (split; [exact I|]); (split; [exact I|]); cbn [to]; auto. split; [reflexivity|apply C; lia].
  - intros i j c d L H1 H2 _ V K. destruct j as [|[|[|[|[|j]]]]]; cbn in H2; try discriminate; injection H2 as <-; cbn [to]; auto; try discriminate K. lia.
Qed.
Example C60_type_case : ct_switch_type (fun a b => (a =? b) || (a =? 1)) 7 [ICase (mkCase false (VTypeid 3) None true); ICase (mkCase false (VTypeid 1) None true); ICase (mkCase false (VTypeid 7) None true)] = Ok (Some 1%nat).
Proof. vm_compute; reflexivity. Qed.
Example C60_repeated_case : ct_switch (int 5) [ICase (mkCase true (int 1) (Some (int 3)) true); ICase (mkCase true (int 2) None true)] = Error.
Proof. vm_compute; reflexivity. Qed.
Example C60_nextcase_case : nextcase (int 5) [RConst (int 1) None; RDefault; RConst (int 4) (Some (int 6))] 0 = Ok (Some 2%nat).
Proof. vm_compute; reflexivity. Qed.
(** A range of literals after the case for the value takes its place: [$switch (5) $case 5: ... $case 1..10: ...] runs the second. *)
Theorem C60_switch_refuted : exists v its o, switchable v /\ Forall (item_for v) its /\ ct_switch v its = Ok o /\ ~ runs (covers v) its o.
Proof.
  exists (int 5), [ICase (mkCase true (int 5) None true); ICase (mkCase true (int 1) (Some (int 10)) true)], (Some 1%nat).
  assert (C : forall a b, -100 <= a <= 100 -> -100 <= b <= 100 -> comparable (int a) (int b)) by (intros a b A B; split; [apply int_for; auto|]; split; [apply int_for; auto|exact I]).
  split; [exact I|]. split; [|split; [vm_compute; reflexivity|]].
  - repeat apply Forall_cons; try apply Forall_nil; cbn [item_for]; (split; [apply C; lia|]); (split; [exact I|]); (split; [exact I|]); (split; [exact I|]); cbn [to]; auto. split; [reflexivity|apply C; lia].
  - intros (i & S & L & _ & N). assert (E : i = 0%nat).
    { destruct S as [(c & H1 & H2 & H3)|[H _]].
      - destruct i as [|i]; [reflexivity|]. exfalso. apply (H3 0%nat _ ltac:(lia) eq_refl). vm_compute. reflexivity.
      - exfalso. apply (H 0%nat _ eq_refl). vm_compute. reflexivity. }
    subst i. specialize (N 0%nat _ ltac:(lia) eq_refl). discriminate.
Qed.
Print Assumptions C60_switch_refuted.
