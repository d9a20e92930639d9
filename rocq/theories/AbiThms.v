(** How arguments are passed on x86-64 (System V): the theorems. *)
From Coq Require Import ZArith List Bool Lia.
From Verif Require Import AbiModel AbiSpec AbiProofs AbiProofs2 AbiProofs3 AbiProofs4 AbiProofs5 AbiProofs6.
Import ListNotations.
Open Scope Z_scope.

(** C118.  A type of at most 16 bytes is given the class that the ABI gives each of its eightbytes, by the scalars in it, for unions, nested types, arrays and packed types too. *)
Theorem C118_small_types_by_eightbyte : forall g named t, target_ok g -> laid g t -> size t <= 16 ->
  exists lo hi, classify g named t 0 = Some (lo, hi) /\ if in_memory g t 0 then lo = Mem else (lo, hi) = classes (scalars t 0).
Proof. intros g nm t G L S. destruct (small_classes g nm t G L S) as (lo & hi & E & H). exists lo, hi. split; [exact E|]. destruct (in_memory g t 0); tauto. Qed.
Print Assumptions C118_small_types_by_eightbyte.
(** A larger type goes in memory if none of its parts takes 16 bytes or more of a vector register, or if it is larger than such a register.
    Missing for C118: types of more than 16 bytes that contain such vectors and fit a register, see below. *)
Theorem C118_large_types_in_memory_partial : forall g named t, target_ok g -> laid g t -> 16 < size t -> no_wide t 0 \/ avx g < size t -> argument g named t = Some (Memory, 0, 0).
Proof. exact argument_large. Qed.
Print Assumptions C118_large_types_in_memory_partial.
(** With AVX, `union { double[<4>] v; long l; }` as an argument ends the compiler by a failed assertion. *)
Theorem C118_union_with_vector_refuted : let g := Target 32 false 0 in let t := TAgg true 32 32 [(0, TVec (VFlt 8) 4); (0, TInt 8)] in target_ok g /\ laid g t /\ argument g true t = None.
Proof. cbv zeta. split; [split; [tauto | left; reflexivity]|]. split; [cbn; repeat split; (discriminate || lia || tauto) | reflexivity]. Qed.
Print Assumptions C118_union_with_vector_refuted.
Definition sse2 : target := Target 16 false 0.
Example sse2_ok : target_ok sse2. Proof. split; [left; reflexivity | left; reflexivity]. Qed.
(** `struct { int a; float b; double c; }`, `struct { char a; int b @packed }` *)
Definition mixed : ty := TAgg false 16 8 [(0, TInt 4); (4, TFlt 4); (8, TFlt 8)].
Definition packed : ty := TAgg false 5 1 [(0, TInt 1); (1, TInt 4)].
Example C118_example : laid sse2 mixed /\ classify sse2 true mixed 0 = Some (Integer, Sse) /\ laid sse2 packed /\ in_memory sse2 packed 0 = true /\ classify sse2 true packed 0 = Some (Mem, No) /\
  (let big := TAgg false 24 8 [(0, TInt 8); (8, TInt 8); (16, TInt 8)] in laid sse2 big /\ no_wide big 0).
Proof. cbn. unfold no_wide. cbn. repeat match goal with |- _ /\ _ => split end; try (discriminate || lia || tauto || reflexivity). intros s [<-|[<-|[<-|[]]]]; auto. Qed.

(** C119.  Arguments take registers from left to right: one that asks for more than is left goes in memory and takes none, all others get what they ask for;
    at most 6 integer and 8 vector registers are used, 5 if the address of the result takes the first. *)
Definition simple (g : target) (t : ty) : Prop := laid g t /\ (size t <= 16 \/ no_wide t 0 \/ avx g < size t).
Theorem C119_registers_in_order : forall g ret by_ref params varargs r hidden l v, target_ok g -> Forall (simple g) params -> Forall (simple g) varargs ->
  create g ret by_ref params varargs = Some (r, hidden, l, v) ->
  let ints := match r with Memory => if aggregate ret then 5 else 6 | _ => 6 end in
  let all := (if by_ref then [TInt 8] else []) ++ params ++ varargs in
  map in_registers (hidden ++ l ++ v) = assign (map (demand g) all) ints 8 /\ total Integer (hidden ++ l ++ v) <= ints /\ total Sse (hidden ++ l ++ v) <= 8 /\
  Forall2 (fun t a => a = Memory \/ exists i s, argument g true t = Some (a, i, s)) params l /\ Forall2 (fun t a => a = Memory \/ exists i s, argument g false t = Some (a, i, s)) varargs v.
Proof.
  intros g ret by_ref params varargs r hidden l v G Fp Fv E. cbv zeta. unfold create in E. destruct (result g ret) as [[r0 sret]|] eqn:R; [|discriminate E].
  assert (Ei : (if sret then 5 else 6) = match r0 with Memory => if aggregate ret then 5 else 6 | _ => 6 end).
  { unfold result in R. destruct (argument g true ret) as [[[x i] s]|]; [|discriminate R]. injection R as <- <-. destruct x; reflexivity. }
  rewrite Ei in E. set (ints := match r0 with Memory => if aggregate ret then 5 else 6 | _ => 6 end) in *. assert (I : 0 <= ints) by (subst ints; destruct r0; try lia; destruct (aggregate ret); lia).
  destruct (parameters g true (if by_ref then [TInt 8] else []) (ints, 8)) as [[h f1]|] eqn:E1; [|discriminate E]. destruct (parameters g true params f1) as [[l' f2]|] eqn:E2; [|discriminate E].
  destruct (parameters g false varargs f2) as [[v' f3]|] eqn:E3; [|discriminate E]. injection E as <- <- <- <-.
  assert (Fh : Forall (simple g) (if by_ref then [TInt 8] else [])) by (destruct by_ref; [constructor; [split; [cbn; tauto | left; cbn; lia] | constructor] | constructor]).
  destruct (parameters_assign g true _ G Fh ints 8 h f1 I ltac:(lia) E1) as (A1 & A2 & A3 & A4 & A5 & _). destruct f1 as [i1 s1].
  destruct (parameters_assign g true _ G Fp i1 s1 l' f2 A4 A5 E2) as (B1 & B2 & B3 & B4 & B5 & B6). destruct f2 as [i2 s2].
  destruct (parameters_assign g false _ G Fv i2 s2 v' f3 B4 B5 E3) as (C1 & C2 & C3 & C4 & C5 & C6). destruct f3 as [i3 s3]. cbn [fst snd] in *.
  assert (Tot : forall k a b, total k (a ++ b) = total k a + total k b) by (intros k a b; induction a as [|x a IH]; [reflexivity|]; cbn [app total fold_right]; fold (total k (a ++ b)) (total k a); rewrite IH; lia).
  fold ints. clearbody ints. rewrite !Tot. repeat match goal with |- _ /\ _ => split end; try lia; try assumption.
  rewrite !map_app. rewrite A1, B1. specialize (C1 []). rewrite app_nil_r in C1. cbn [assign] in C1. rewrite app_nil_r in C1. rewrite C1. reflexivity.
Qed.
Print Assumptions C119_registers_in_order.
(** Six integers, then a pair of doubles, then a struct that no longer fits, then a long. *)
Example C119_example : let two := TAgg false 16 8 [(0, TInt 8); (8, TInt 8)] in let ps := [two; two; TInt 4; two; mixed; TInt 8; TFlt 8] in
  Forall (simple sse2) ps /\ create sse2 TVoid false ps [] = Some (Ignored, [], [Two (AInt 8) (AInt 8); Two (AInt 8) (AInt 8); One (AInt 4); Memory; Two (AInt 8) (AFlt 8); Memory; One (AFlt 8)], []).
Proof. cbv zeta. split; [|reflexivity]. apply Forall_forall. intros x [<-|[<-|[<-|[<-|[<-|[<-|[<-|[]]]]]]]]; (split; [cbn; repeat split; (discriminate || lia || tauto) | left; cbn; lia]). Qed.

(** C120.  Bytes are taken for padding exactly if no scalar lies there, and the integer that a register passes has room for all the data of its eightbyte. *)
Theorem C120_padding_exact : forall g t start stop, laid g t -> 0 <= start < stop ->
  no_data t start stop = true <-> forall b, start <= b < stop -> ~ data t b.
Proof.
  intros g t start stop L S. rewrite (no_data_exact g t L start stop S). split.
  - intros C b B (s & I & D). destruct (C s I); lia.
  - intros H s I. pose proof (scalar_in g t L s I) as B. destruct (Z_le_gt_dec (s_off s + s_size s) start) as [X|X]; [left; exact X|]. destruct (Z_le_gt_dec stop (s_off s)) as [Y|Y]; [right; exact Y|].
    exfalso. apply (H (Z.max start (s_off s))); [lia|]. exists s. split; [exact I | lia].
Qed.
Print Assumptions C120_padding_exact.
Theorem C120_integers_hold_their_data : forall g t off, laid g t -> 0 <= off < size t -> exists a, int_at t off t off = Some a /\ holds a t off /\ 1 <= asize a <= 8.
Proof. intros g t off L O. destruct (int_part t off _ (int_at_good g t off L O t L off ltac:(lia))) as (a & E & H & (P & _) & _). exists a. auto. Qed.
Print Assumptions C120_integers_hold_their_data.
Example C120_example : laid sse2 mixed /\ int_at mixed 0 mixed 0 = Some (AInt 8) /\ laid sse2 (TAgg false 12 4 [(0, TArray (TInt 4) 2); (8, TArray (TInt 1) 3)]) /\
  int_at (TAgg false 12 4 [(0, TArray (TInt 4) 2); (8, TArray (TInt 1) 3)]) 8 (TAgg false 12 4 [(0, TArray (TInt 4) 2); (8, TArray (TInt 1) 3)]) 8 = Some (AInt 4) /\
  no_data (TAgg false 16 8 [(0, TInt 4); (8, TInt 8)]) 4 8 = true.
Proof. cbn. repeat match goal with |- _ /\ _ => split end; try (discriminate || lia || tauto || reflexivity). Qed.

(** C121.  An argument always arrives whole.  It does if it is a small type where no scalar has more padding before it than its alignment needs, and that either has no floats, or has no
    unions and no padding behind a nested struct; and if it goes in memory.  Missing: other small types, for which it is false. *)
Theorem C121_arguments_arrive_partial : forall g named t, target_ok g -> laid g t ->
  (size t <= 16 /\ no_spare t /\ (plain t \/ integral t)) \/ (16 < size t /\ (no_wide t 0 \/ avx g < size t)) ->
  exists r i s, argument g named t = Some (r, i, s) /\ arrives t r.
Proof.
  intros g nm t G L [(S & N & P)|(S & C)]; [apply (argument_good g); assumption|]. exists Memory, 0, 0. split; [apply argument_large; assumption | exact I].
Qed.
Print Assumptions C121_arguments_arrive_partial.
(** `union { double d; float f; }` is passed as its last member, 4 bytes of 8. *)
Theorem C121_union_of_floats_refuted : let t := TAgg true 8 8 [(0, TFlt 8); (0, TFlt 4)] in
  laid sse2 t /\ argument sse2 true t = Some (One (AFlt 4), 0, 1) /\ ~ arrives t (One (AFlt 4)).
Proof.
  cbv zeta. split; [cbn; repeat split; (discriminate || lia || tauto)|]. split; [reflexivity|]. intros [H _]. assert (D : data (TAgg true 8 8 [(0, TFlt 8); (0, TFlt 4)]) 7) by (exists (Scalar 0 8 KSse); cbn; split; [auto | lia]).
  specialize (H 7 D ltac:(lia)). cbn in H. lia.
Qed.
Print Assumptions C121_union_of_floats_refuted.
(** `struct Inner { float x; } struct Outer { Inner i; double d; }`: a null pointer is dereferenced in the compiler. *)
Theorem C121_nested_struct_refuted : let t := TAgg false 16 8 [(0, TAgg false 4 4 [(0, TFlt 4)]); (8, TFlt 8)] in laid sse2 t /\ no_spare t /\ argument sse2 true t = None.
Proof.
  cbv zeta. split; [cbn; repeat split; (discriminate || lia || tauto)|]. split; [|reflexivity]. intros s [<-|[<-|[]]]; [left; reflexivity|]. right. exists (Scalar 0 4 KSse). cbn. split; [auto | lia].
Qed.
Print Assumptions C121_nested_struct_refuted.
(** `struct { int a; int b @align(8); }`: a failed assertion. *)
Theorem C121_overaligned_member_refuted : let t := TAgg false 16 8 [(0, TInt 4); (8, TInt 4)] in laid sse2 t /\ plain t /\ integral t /\ argument sse2 true t = None.
Proof.
  cbv zeta. split; [cbn; repeat split; (discriminate || lia || tauto)|]. split; [cbn; tauto|]. split; [intros s [<-|[<-|[]]]; reflexivity | reflexivity].
Qed.
Print Assumptions C121_overaligned_member_refuted.
(** `struct { half a; half b; float[3] c; }`, with nothing lost. *)
Example C121_example : let t := TAgg false 16 4 [(0, TFlt 2); (2, TFlt 2); (4, TArray (TFlt 4) 3)] in laid sse2 t /\ no_spare t /\ plain t /\ argument sse2 true t = Some (Two (AHalfs 4) AFloats, 0, 2).
Proof.
  cbv zeta. split; [cbn; repeat split; (discriminate || lia || tauto)|]. split; [|split; [cbn; tauto | reflexivity]].
  intros s [<-|[<-|[<-|[<-|[<-|[]]]]]]; [left; reflexivity|right..]; [exists (Scalar 0 2 KSse) | exists (Scalar 2 2 KSse) | exists (Scalar 4 4 KSse) | exists (Scalar 8 4 KSse)]; cbn; (split; [tauto | lia]).
Qed.
