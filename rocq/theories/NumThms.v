(** C15, C16: the type of an arithmetic operation and implicit integer conversions. *)
From Coq Require Import ZArith Bool List Lia.
From Verif Require Import Word Int128Model Int128Spec CmpModel CmpSpec NumModel NumSpec NumProofs NumProofs2.
Import ListNotations.
Open Scope Z_scope.

(** ** C15 *)
(** The result does not depend on the order (types of up to 510 nested typedefs; beyond that the compiler stops). *)
Theorem C15_symmetric : forall w a b, (typedefs a < 511)%nat -> (typedefs b < 511)%nat ->
  max_type a b = max_type b a /\ arith_type w a b = arith_type w b a.
Proof. intros w a b Ha Hb. unfold arith_type. rewrite (max_type_comm a b Ha Hb). auto. Qed.
Print Assumptions C15_symmetric.
Definition Meter := Distinct 1 true (Builtin (NI I32)).
Definition Foot := Distinct 2 true Meter.
Definition Mile := Distinct 3 true Meter.
Example C15_symmetric_ex : max_type Foot Mile = Max Meter /\ max_type Mile Foot = Max Meter /\ max_type (Builtin (NI I32)) (Builtin (NI U64)) = Max (Builtin (NI I64)).
Proof. vm_compute. auto. Qed.

Theorem C15_idempotent : forall a, max_type a a = Max a.
Proof. intros a. unfold max_type. rewrite ty_eqb_refl. reflexivity. Qed.
Print Assumptions C15_idempotent.

(** Two integers: the wider width, signed if either is; two floats: the wider; an integer and a float: the float. *)
Theorem C15_builtin_result : forall a b,
  match a, b with
  | NI x, NI y => exists k, max_type (Builtin a) (Builtin b) = Max (Builtin (NI k)) /\ kbits k = Z.max (kbits x) (kbits y) /\ ksigned k = ksigned x || ksigned y
  | NF x, NF y => exists f, max_type (Builtin a) (Builtin b) = Max (Builtin (NF f)) /\ fbits f = Z.max (fbits x) (fbits y)
  | NI _, NF f | NF f, NI _ => max_type (Builtin a) (Builtin b) = Max (Builtin (NF f))
  end.
Proof.
  assert (E : forall a b, max_type (Builtin a) (Builtin b) = Max (Builtin (max_builtin a b))).
  { intros a b. unfold max_type. destruct (ty_eqb (Builtin a) (Builtin b)) eqn:E; [|reflexivity]. cbn [ty_eqb] in E. unfold max_builtin. rewrite E. reflexivity. }
  intros [x|x] [y|y]; rewrite E.
  - destruct (max_builtin_ints x y) as (k & -> & H). exists k. auto.
  - rewrite max_builtin_mixed. reflexivity.
  - rewrite max_builtin_comm, max_builtin_mixed. reflexivity.
  - destruct (max_builtin_floats x y) as (k & -> & H). exists k. auto.
Qed.
Print Assumptions C15_builtin_result.

(** Builtin types: grouping does not matter, for the common type and for the type of a sum on a platform with
    16-bit or 32-bit C int. *)
Theorem C15_associative_partial : forall a b c,
  max_builtin a (max_builtin b c) = max_builtin (max_builtin a b) c /\
  forall w ab bc, w = 16 \/ w = 32 -> arith_type w (Builtin a) (Builtin b) = Max ab -> arith_type w (Builtin b) (Builtin c) = Max bc ->
    arith_type w (Builtin a) bc = arith_type w ab (Builtin c).
Proof.
  intros a b c. split; [apply max_builtin_assoc|]. intros w ab bc. apply arith_assoc.
Qed.
Print Assumptions C15_associative_partial.
(** With declared types it does: Meter and Gram, both declared inline from int, and int itself. *)
Definition Gram := Distinct 4 true (Builtin (NI I32)).
Theorem C15_associative_refuted : exists a b c ab bc, max_type a b = Max ab /\ max_type b c = Max bc /\ max_type ab c <> max_type a bc.
Proof. exists Meter, Meter, Gram, Meter, (Builtin (NI I32)). vm_compute. split; [reflexivity|]. split; [reflexivity|discriminate]. Qed.
Print Assumptions C15_associative_refuted.

(** The result is at least as wide as both when both are integers or both are floats. *)
Theorem C15_width_partial : forall a b, match a, b with NI _, NI _ | NF _, NF _ => True | _, _ => False end ->
  nbits a <= nbits (max_builtin a b) /\ nbits b <= nbits (max_builtin a b).
Proof.
  intros [x|x] [y|y] H; try contradiction.
  - destruct (max_builtin_ints x y) as (k & -> & Hk & _). cbn [nbits]. lia.
  - destruct (max_builtin_floats x y) as (k & -> & Hk). cbn [nbits]. lia.
Qed.
Print Assumptions C15_width_partial.
(** int128 + float16 is a float16; long + a distinct char is that char. *)
Theorem C15_width_refuted :
  (exists a b, nbits (max_builtin a b) < nbits a) /\
  (exists a b t, max_type a b = Max t /\ nbits (flatten t) < nbits (flatten a)).
Proof.
  split; [exists (NI I128), (NF F16); vm_compute; reflexivity|].
  exists (Builtin (NI I64)), (Distinct 1 false (Builtin (NI U8))), (Distinct 1 false (Builtin (NI U8))). vm_compute. auto.
Qed.
Print Assumptions C15_width_refuted.

(** The common type of two different declared types is the nearest type both are declared [inline] from. *)
Theorem C15_common_ancestor : forall i u x j v y t, (typedefs (Distinct i u x) < 511)%nat -> Distinct i u x <> Distinct j v y ->
  max_type (Distinct i u x) (Distinct j v y) = Max t ->
  In t (ancestors (Distinct i u x)) /\ In t (ancestors (Distinct j v y)) /\
  exists p q, ancestors (Distinct j v y) = p ++ t :: q /\ forall s, In s p -> ~ In s (ancestors (Distinct i u x)).
Proof.
  intros i u x j v y t Hd Hn. unfold max_type. rewrite (proj2 (ty_eqb_neq _ _) Hn). rewrite max_distinct_spec by auto.
  destruct (common _ _) eqn:E; [|discriminate]. intros [= ->]. unfold common in E. destruct (find_first _ _ _ E) as (p & q & Ep & Ht & Hp).
  apply existsb_ty in Ht. split; [auto|]. split; [rewrite Ep; apply in_or_app; right; left; reflexivity|].
  exists p, q. split; [auto|]. intros s Hs C. apply existsb_ty in C. rewrite (Hp s Hs) in C. discriminate.
Qed.
Print Assumptions C15_common_ancestor.

(** ** C16 *)
(** Widening keeps the number, except that a negative number does not survive in an unsigned type. *)
Theorem C16_widening_partial : forall cint e t z, typed e -> implicit_ok cint e t = true -> kbits (ty e) < kbits t -> result e z ->
  (ksigned t = false -> 0 <= z) -> result (convert e t) z.
Proof.
  intros cint e t z T H L R N. pose proof (convert_reduces e t z T R) as C. rewrite wrap_in in C; [exact C|].
  eapply in_kind_widen; eauto. apply result_range; auto.
Qed.
Print Assumptions C16_widening_partial.
Example C16_widening_ex : implicit_ok I32 (Bin BDiv (Var I16 65526) (Var I16 3)) I64 = true /\ result (convert (Bin BDiv (Var I16 65526) (Var I16 3)) I64) (-3).
Proof. split; [reflexivity|]. exists (2 ^ 64 - 3). split; reflexivity. Qed.
(** It is accepted all the same, for variables and for constants: "ushort y = x" with x = -1, "ulong y = -1". *)
Theorem C16_widening_refuted : exists e t z, typed e /\ implicit_ok I32 e t = true /\ kbits (ty e) < kbits t /\ result e z /\ ~ result (convert e t) z.
Proof.
  exists (Var I8 255), U16, (-1). split; [vm_compute; intuition congruence|]. split; [reflexivity|]. split; [reflexivity|]. split.
  - exists 255. split; reflexivity.
  - intros (v & E & B). cbn in E. injection E as <-. vm_compute in B. discriminate.
Qed.
Print Assumptions C16_widening_refuted.
Theorem C16_constant_widening_refuted : exists x t, valid x /\ implicit_ok I32 (Lit x) t = true /\ ~ result (convert (Lit x) t) (value x).
Proof.
  exists (const I32 (-1)), U64. split; [vm_compute; intuition congruence|]. split; [reflexivity|].
  intros (v & E & B). vm_compute in E. injection E as <-. vm_compute in B. discriminate.
Qed.
Print Assumptions C16_constant_widening_refuted.
(** Between types of one width the bits stay; a constant is only accepted when its number stays. *)
Theorem C16_same_width : forall cint e t, typed e -> implicit_ok cint e t = true -> kbits (ty e) = kbits t ->
  (forall x, e <> Lit x) -> eval (convert e t) = eval e.
Proof.
  intros cint e t T H L N. assert (C : convert e t = Ext t e) by (destruct e; try reflexivity; exfalso; eapply N; reflexivity).
  rewrite C. cbn [eval]. destruct (eval e) eqn:E; [|reflexivity]. f_equal. apply CmpProofs.ext_trunc_same; [auto|]. eapply eval_bits; eauto.
Qed.
Print Assumptions C16_same_width.
Theorem C16_constant : forall cint x t, valid x -> implicit_ok cint (Lit x) t = true -> kbits t <= kbits (itype x) ->
  result (convert (Lit x) t) (value x).
Proof.
  intros cint x t V H L. unfold implicit_ok in H. cbn [ty] in H. destruct (Z.ltb_spec (kbits (itype x)) (kbits t)); [lia|].
  destruct (int_fits x t) eqn:F; [|discriminate]. apply Int128Thms.C07_fits in F; [|apply V].
  rewrite <- (wrap_in t (value x) F). apply convert_reduces; [exact V|]. exists (value x mod 2 ^ kbits (itype x)). split; [reflexivity|]. apply lit_value; auto.
Qed.
Print Assumptions C16_constant.
Example C16_constant_ex : implicit_ok I32 (Lit (const I32 200)) U8 = true /\ implicit_ok I32 (Lit (const I32 256)) U8 = false /\ implicit_ok I32 (Lit (const I32 (-1))) U32 = false.
Proof. vm_compute. auto. Qed.
(** An expression (without the length of a slice) is accepted for narrowing exactly when its operands fit. *)
Theorem C16_narrowing_operands_partial : forall cint e t, typed e -> kbits t < kbits (ty e) -> Forall no_len (operands t e) ->
  (implicit_ok cint e t = true <-> Forall (fits t) (operands t e)).
Proof.
  intros cint e t T L N. rewrite <- (may_narrow_operands cint t e T N). unfold implicit_ok.
  destruct (Z.ltb_spec (kbits (ty e)) (kbits t)); [lia|]. destruct (Z.eqb_spec (kbits t) (kbits (ty e))); [lia|].
  destruct e; try reflexivity. cbn [may_narrow]. destruct (int_fits x t); cbn [negb]; split; congruence.
Qed.
Print Assumptions C16_narrowing_operands_partial.
(** The length of a slice is taken for an int although it is 64 bits wide. *)
Theorem C16_narrowing_operands_refuted : exists e t, typed e /\ implicit_ok I32 e t = true /\ kbits t < kbits (ty e) /\ ~ Forall (fits t) (operands t e) /\
  result e (2 ^ 32) /\ result (convert e t) 0.
Proof.
  exists (SliceLen (2 ^ 32)), I32. split; [vm_compute; split; congruence|]. split; [reflexivity|]. split; [reflexivity|]. split; [|split].
  - intros H. inversion H. vm_compute in H2. congruence.
  - exists (2 ^ 32). split; reflexivity.
  - exists 0. split; reflexivity.
Qed.
Print Assumptions C16_narrowing_operands_refuted.
(** Narrowing an accepted expression of + - * & | ^ ~ << ?? ?: gives what computing at the target's width gives. *)
Theorem C16_narrowing_modular : forall cint e t v, typed e -> kbits t < kbits (ty e) -> implicit_ok cint e t = true -> modular t e -> eval e = Some v ->
  exists z, computes t e z /\ forall z', computes t e z' -> result (convert e t) (wrap t z').
Proof. exact narrow_modular. Qed.
Print Assumptions C16_narrowing_modular.
Definition sum_of_shorts := Bin BAdd (Ext I32 (Var I16 32767)) (Bin BMul (Ext I32 (Var U8 2)) (Lit (const I32 1000))).
Example C16_narrowing_modular_ex : typed sum_of_shorts /\ kbits I16 < kbits (ty sum_of_shorts) /\ implicit_ok I32 sum_of_shorts I16 = true /\ modular I16 sum_of_shorts /\
  eval sum_of_shorts = Some 34767 /\ result (convert sum_of_shorts I16) (34767 - 65536).
Proof.
  split; [vm_compute; intuition congruence|]. split; [reflexivity|]. split; [reflexivity|]. split; [cbn; intuition congruence|]. split; [reflexivity|].
  exists 34767. split; reflexivity.
Qed.
(** With a division it does not: (a * b) / c with chars a = 200, b = 200, c = 100 computed as ints and narrowed. *)
Theorem C16_narrowing_division_refuted : exists e t z, typed e /\ implicit_ok I32 e t = true /\ kbits t < kbits (ty e) /\ result e z /\ computes t e (wrap t (64 / 100)) /\
  ~ result (convert e t) z /\ ~ result (convert e t) (wrap t (64 / 100)).
Proof.
  set (v x := Ext I32 (Var U8 x)). exists (Bin BDiv (Bin BMul (v 200) (v 200)) (v 100)), U8, 400.
  split; [vm_compute; intuition congruence|]. split; [reflexivity|]. split; [reflexivity|]. split; [exists 400; split; reflexivity|].
  assert (CV : forall x, 0 <= x < 256 -> computes U8 (v x) x).
  { intros x Hx. apply Comp_wide; [reflexivity|]. apply Wide_ext. apply Comp_operand; [vm_compute; congruence|]. exists x. split; reflexivity. }
  split.
  - change (wrap U8 (64 / 100)) with (wrap U8 (zop BDiv 64 100)). apply Comp_wide; [reflexivity|]. apply Wide_bin; [|apply CV; lia].
    change 64 with (wrap U8 (zop BMul 200 200)). apply Comp_wide; [reflexivity|]. apply Wide_bin; apply CV; lia.
  - split; intros (r & E & B); vm_compute in E; injection E as <-; vm_compute in B; discriminate.
Qed.
Print Assumptions C16_narrowing_division_refuted.
(** An expression accepted for widening is one whose number does not depend on the width it is computed in:
    no intermediate result wraps (without "!!"). *)
Theorem C16_widening_unambiguous_partial : forall cint e t z, typed e -> implicit_ok cint e t = true -> kbits (ty e) < kbits t -> no_unwrap e -> result e z ->
  forall z', exact e z' <-> z' = z.
Proof.
  intros cint e t z T H L U R z'. unfold implicit_ok in H. destruct (Z.ltb_spec (kbits (ty e)) (kbits t)); [|lia].
  pose proof (simple_exact e z T H U R) as X. split; [intros X'; eapply exact_det; eauto|intros ->; auto].
Qed.
Print Assumptions C16_widening_unambiguous_partial.
(** "!!" hides a sum that wraps: long x = (a + b)!! with ints. *)
Theorem C16_widening_unambiguous_refuted : exists e t z z', typed e /\ implicit_ok I32 e t = true /\ kbits (ty e) < kbits t /\ result e z /\ exact e z' /\ z <> z'.
Proof.
  exists (Unwrap (Bin BAdd (Var I32 (2 ^ 31 - 1)) (Var I32 1))), I64, (- 2 ^ 31), (2 ^ 31).
  split; [vm_compute; intuition congruence|]. split; [reflexivity|]. split; [reflexivity|]. split; [|split; [|vm_compute; congruence]].
  - exists (2 ^ 31). split; reflexivity.
  - apply Ex_unwrap. change (2 ^ 31) with (zop BAdd (2 ^ 31 - 1) 1). apply Ex_bin; apply Ex_atom; try exact I; eexists; split; reflexivity.
Qed.
Print Assumptions C16_widening_unambiguous_refuted.
