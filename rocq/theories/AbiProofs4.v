(** Arguments on x86-64: what the registers hold. *)
From Coq Require Import ZArith List Bool Lia ZifyBool.
From Verif Require Import AbiModel AbiSpec AbiProofs AbiProofs2 AbiProofs3.
Import ListNotations.
Open Scope Z_scope.

(** Padding. *)
Section NoData.
Variables (start stop : Z).
Fixpoint no_data_ms (ms : list (Z * ty)) : bool :=
  match ms with [] => true | (mo, m) :: r => if stop <=? mo then true else if no_data m (if mo <? start then start - mo else 0) (stop - mo) then no_data_ms r else false end.
Variable b : ty.
Fixpoint no_data_el (n : nat) (off : Z) : bool :=
  match n with O => true | S k => if stop <=? off then true else if no_data b (if off <? start then start - off else 0) (stop - off) then no_data_el k (off + size b) else false end.
End NoData.
Lemma no_data_agg u s a ms start stop : no_data (TAgg u s a ms) start stop = if s <=? start then true else no_data_ms start stop ms. Proof. reflexivity. Qed.
Lemma no_data_array b n start stop : no_data (TArray b n) start stop = if size b * Z.of_nat n <=? start then true else no_data_el start stop b n 0. Proof. reflexivity. Qed.
Definition clear (l : list scalar) (start stop : Z) : Prop := forall s, In s l -> s_off s + s_size s <= start \/ stop <= s_off s.
Lemma clear_beyond g t start stop : laid g t -> size t <= start -> clear (scalars t 0) start stop.
Proof. intros L S s I. pose proof (scalar_in g t L s I). lia. Qed.
Lemma clear_app l l' start stop : clear (l ++ l') start stop <-> clear l start stop /\ clear l' start stop.
Proof. unfold clear. split; [intro H; split; intros s I; apply H, in_or_app; auto | intros [A B] s I; apply in_app_or in I; destruct I; auto]. Qed.
Lemma clear_at t off start stop : clear (scalars t off) start stop <-> clear (scalars t 0) (start - off) (stop - off).
Proof.
  split; intros H s I.
  - assert (J : In (shift off s) (scalars t off)) by (apply scalars_at; exists s; auto). specialize (H _ J). cbn in H. lia.
  - apply scalars_at in I. destruct I as (x & I & ->). specialize (H _ I). cbn. lia.
Qed.
Lemma clear_start g t start stop : laid g t -> start <= 0 -> clear (scalars t 0) start stop <-> clear (scalars t 0) 0 stop.
Proof. intros L S. split; intros H s I; specialize (H s I); pose proof (scalar_in g t L s I); lia. Qed.
Lemma leaf_clear off n k start stop : start < stop -> 0 <= start -> 0 < n -> (if n <=? start then true else false) = true <-> clear [Scalar off n k] (start + off) (stop + off).
Proof.
  intros A B N. split; [intros H s [<-|[]]; cbn; destruct (n <=? start) eqn:E; [lia | discriminate H]|]. intro H. specialize (H _ (or_introl eq_refl)). cbn in H. destruct (n <=? start) eqn:E; [reflexivity | lia].
Qed.
Lemma no_data_exact g t : laid g t -> forall start stop, 0 <= start < stop -> no_data t start stop = true <-> clear (scalars t 0) start stop.
Proof.
  assert (Sub : forall m mo start stop, laid g m -> 0 <= start < stop -> 0 <= mo < stop -> (forall start stop, 0 <= start < stop -> no_data m start stop = true <-> clear (scalars m 0) start stop) ->
    no_data m (if mo <? start then start - mo else 0) (stop - mo) = true <-> clear (scalars m mo) start stop).
  { intros m mo start stop L S O H. rewrite clear_at. destruct (mo <? start) eqn:C; rewrite H by lia; [reflexivity|]. symmetry. apply (clear_start g); [exact L | lia]. }
  assert (Leaf : forall n k start stop, 0 <= start < stop -> 0 < n -> (if n <=? start then true else false) = true <-> clear [Scalar 0 n k] start stop).
  { intros n k start stop S N. replace start with (start + 0) at 2 by ring. replace stop with (stop + 0) by ring. apply leaf_clear; lia. }
  induction t as [|n| |n| | |u sz a ms IH|b n IH|v n] using ty_induction; intros L start stop S.
  - destruct L.
  - apply Leaf; [exact S | cbn in L; lia].
  - apply Leaf; [exact S | lia].
  - apply Leaf; [exact S | cbn in L; lia].
  - apply Leaf; [exact S | lia].
  - apply Leaf; [exact S | lia].
  - pose proof L as L'. apply laid_agg in L. destruct L as (_ & _ & _ & _ & L). rewrite no_data_agg. destruct (sz <=? start) eqn:B; [split; [intros _; apply (clear_beyond g); [exact L' | cbn; lia] | reflexivity]|]. clear B L'. rewrite scalars_agg.
    assert (Gen : forall from, 0 <= from -> laid_ms g u sz from ms -> no_data_ms start stop ms = true <-> clear (scalars_ms 0 ms) start stop); [|apply (Gen 0); [lia | exact L]].
    clear L. induction ms as [|[mo m] r IHr]; intros from F L; [split; [intros _ s [] | reflexivity]|].
    pose proof L as L0. cbn [laid_ms] in L. destruct L as (L1 & L2 & L3 & L4 & L5). cbn [no_data_ms scalars_ms]. change (0 + mo) with mo. pose proof (size_pos g m L4) as P. destruct (stop <=? mo) eqn:B.
    + split; [|reflexivity]. intros _ s I. change (In s (scalars_ms 0 ((mo, m) :: r))) in I. apply in_ms in I. destruct I as (o & x & I & J). apply scalars_at in J. destruct J as (s' & J & ->).
      destruct (in_laid_ms g u sz from _ o x F L0 I) as (X1 & X2 & X3). pose proof (scalar_in g x X3 s' J) as Y. cbn [shift s_off]. right. destruct u; [specialize (L2 eq_refl); lia|].
      destruct I as [I|I]; [injection I as -> ->; lia|]. destruct (in_laid_ms g false sz (mo + size m) r o x ltac:(lia) L5 I). lia.
    + rewrite clear_app. rewrite <- (Sub m mo start stop L4 S ltac:(lia) ((Forall_inv IH) L4)). rewrite <- (IHr (Forall_inv_tail IH) (if u then 0 else mo + size m) ltac:(destruct u; lia) L5).
      destruct (no_data m _ _); [tauto | split; [discriminate | intros [X _]; discriminate X]].
  - pose proof L as L'. cbn [laid] in L. destruct L as [Ln L]. rewrite no_data_array. destruct (size b * Z.of_nat n <=? start) eqn:B; [split; [intros _; apply (clear_beyond g); [exact L' | cbn [size]; lia] | reflexivity]|]. clear B L' Ln. rewrite scalars_array.
    assert (Gen : forall o, 0 <= o -> no_data_el start stop b n o = true <-> clear (scalars_el b n o) start stop); [|apply Gen; lia].
    pose proof (size_pos g b L) as P. induction n as [|n IHn]; intros o O; [split; [intros _ s [] | reflexivity]|]. cbn [no_data_el scalars_el]. destruct (stop <=? o) eqn:B.
    + split; [|reflexivity]. intros _ s I. change (In s (scalars_el b (Datatypes.S n) o)) in I. apply in_el in I. destruct I as (i & I & J). apply scalars_at in J. destruct J as (s' & J & ->). pose proof (scalar_in g b L s' J). cbn [shift s_off].
      assert (0 <= size b * i) by (apply Z.mul_nonneg_nonneg; lia). lia.
    + rewrite clear_app. rewrite <- (Sub b o start stop L S ltac:(lia) (IH L)). rewrite <- (IHn (o + size b) ltac:(lia)). destruct (no_data b _ _); [tauto | split; [discriminate | intros [X _]; discriminate X]].
  - cbn [laid] in L. apply Leaf; [exact S | apply pow2_up_pos].
Qed.

(** Integers. *)
Section IntAt.
Variables (off : Z) (src : ty) (soff : Z).
Fixpoint int_ms (ms : list (Z * ty)) (last : option abity) : option abity :=
  match ms with [] => last | (mo, m) :: r => if off <? mo then last else int_ms r (int_at m (off - mo) src soff) end.
End IntAt.
Definition int_rest (src : ty) (soff : Z) : option abity := if size src =? soff then None else if 8 <? size src - soff then Some (AInt 8) else Some (int_of (size src - soff)).
Lemma int_agg u s a ms off src soff : int_at (TAgg u s a ms) off src soff = if u then int_rest src soff else if s <=? off then int_rest src soff else int_ms off src soff ms None.
Proof. destruct u; reflexivity. Qed.
Definition int_good (src : ty) (soff : Z) (r : option abity) : Prop :=
  exists a, r = Some a /\ holds a src soff /\ (a = AInt 1 \/ a = AInt 2 \/ a = AInt 4 \/ a = AInt 8 \/ a = AOdd (size src - soff) /\ 1 <= size src - soff <= 8).
Lemma int_rest_good g src soff : laid g src -> 0 <= soff < size src -> int_good src soff (int_rest src soff).
Proof.
  intros L S. unfold int_rest. replace (size src =? soff) with false by lia. destruct (8 <? size src - soff) eqn:E.
  - exists (AInt 8). split; [reflexivity|]. split; [intros b D B; cbn; lia | tauto].
  - set (n := size src - soff) in *. exists (int_of n). split; [reflexivity|]. split.
    + intros b (s & I & B) B'. pose proof (scalar_in g src L s I). unfold int_of. destruct ((n =? 1) || (n =? 2) || (n =? 4) || (n =? 8)); cbn [asize]; lia.
    + unfold int_of. destruct ((n =? 1) || (n =? 2) || (n =? 4) || (n =? 8)) eqn:C; [|right; right; right; right; split; [reflexivity | lia]].
      assert (C' : n = 1 \/ n = 2 \/ n = 4 \/ n = 8) by lia. destruct C' as [->|[->|[->| ->]]]; tauto.
Qed.
Lemma int_at_good g src soff : laid g src -> 0 <= soff < size src -> forall t, laid g t -> forall off, 0 <= off -> int_good src soff (int_at t off src soff).
Proof.
  intros L S. pose proof (int_rest_good g src soff L S) as R.
  assert (E8 : int_good src soff (Some (AInt 8))) by (exists (AInt 8); split; [reflexivity|]; split; [intros b D B; cbn; lia | tauto]).
  induction t as [|n| |n| | |u s a ms IH|b n IH|v n] using ty_induction; intros Lt off O; try exact R.
  - destruct Lt.
  - assert (C : int_at (TInt n) off src soff = if n =? 8 then (if off =? 0 then Some (AInt 8) else int_rest src soff) else if negb (off =? 0) then int_rest src soff else if no_data src (soff + n) (soff + 8) then Some (AInt n) else int_rest src soff).
    { cbn [laid In] in Lt. destruct Lt as [<-|[<-|[<-|[<-|[]]]]]; reflexivity. }
    rewrite C. destruct (n =? 8) eqn:N8; [destruct (off =? 0); assumption|]. destruct (negb (off =? 0)); [exact R|]. destruct (no_data src (soff + n) (soff + 8)) eqn:D; [|exact R].
    cbn [laid In] in Lt. apply (no_data_exact g src L) in D; [|lia]. exists (AInt n). split; [reflexivity|]. split.
    + intros b (s & I & B) B'. cbn [asize]. destruct (D s I); lia.
    + destruct Lt as [<-|[<-|[<-|[<-|[]]]]]; tauto.
  - cbn [int_at]. destruct (off <? 16); assumption.
  - apply laid_agg in Lt. destruct Lt as (_ & _ & NE & Z0 & Lt). rewrite int_agg. destruct u; [exact R|]. destruct (s <=? off); [exact R|].
    assert (Gen : forall from last, 0 <= from -> laid_ms g false s from ms -> int_good src soff last -> int_good src soff (int_ms off src soff ms last)).
    { clear NE Z0 Lt. induction ms as [|[mo m] r IHr]; intros from last F Lm Good; [exact Good|]. cbn [laid_ms] in Lm. destruct Lm as (L1 & L2 & L3 & L4 & L5). cbn [int_ms]. destruct (off <? mo) eqn:C; [exact Good|].
      pose proof (size_pos g m L4). apply (IHr (Forall_inv_tail IH) (mo + size m)); [lia | exact L5 |]. apply (Forall_inv IH); [exact L4 | lia]. }
    destruct ms as [|[mo m] r]; [congruence|]. subst mo. cbn [int_ms]. replace (off <? 0) with false by lia. cbn [laid_ms] in Lt. destruct Lt as (L1 & L2 & L3 & L4 & L5).
    pose proof (size_pos g m L4) as P. specialize (Gen 0 (int_at m (off - 0) src soff) ltac:(lia)). cbn [int_ms laid_ms] in Gen. replace (off <? 0) with false in Gen by lia.
    apply Gen; [repeat split; try lia; assumption|]. apply (Forall_inv IH); [exact L4 | lia].
  - cbn [laid] in Lt. destruct Lt as [_ Lt]. cbn [int_at]. apply (IH Lt). pose proof (size_pos g b Lt). pose proof (Z.mul_div_le off (size b) ltac:(lia)). lia.
Qed.
