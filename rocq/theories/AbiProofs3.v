(** Arguments on x86-64: large types, and the scalars of a type. *)
From Coq Require Import ZArith List Bool Lia ZifyBool.
From Verif Require Import AbiModel AbiSpec AbiProofs AbiProofs2.
Import ListNotations.
Open Scope Z_scope.

(** Types of more than 16 bytes. *)
Definition low (c : class) : Prop := c = No \/ c = Integer \/ c = Sse.
Lemma low_join a b : low a -> low b -> low (join a b). Proof. unfold low. intuition subst; cbn; tauto. Qed.
Lemma low_merge a b : low a -> merge a b = Some (join a b). Proof. intro H. apply merge_join. unfold low in H. intuition congruence. Qed.
Lemma low_join2 a b : low a -> b <> SseUp -> ceq (join a b) Mem = false -> low (join a b).
Proof. intros [->|[->| ->]] B C; destruct b; cbn in *; unfold low; try discriminate C; try congruence; tauto. Qed.
Lemma join_up a b : low a -> b <> SseUp -> join a b <> SseUp.
Proof. intros [->|[->| ->]] B; destruct b; cbn; congruence. Qed.
Definition big_ok (t : ty) (off : Z) (r : option (class * class)) : Prop :=
  exists lo hi, r = Some (lo, hi) /\ lo <> SseUp /\ hi <> SseUp /\ (16 < size t -> lo = Mem \/ hi = Mem /\ 8 <= off).
Lemma post_big sz lo hi : lo <> SseUp -> hi <> SseUp -> exists a b, post_merge sz lo hi = (a, b) /\ a <> SseUp /\ b <> SseUp /\ (16 < sz -> a = Mem).
Proof.
  intros A B. unfold post_merge. destruct (16 <? sz) eqn:E; destruct lo, hi; try congruence; cbn; eexists; eexists; (split; [reflexivity|]); repeat split; try congruence; lia.
Qed.
Lemma classify_big g nm t : laid g t -> forall off, no_wide t off -> big_ok t off (classify g nm t off).
Proof.
  assert (Cur : forall off c t, c <> SseUp -> size t <= 16 -> big_ok t off (Some (current off c))).
  { intros off c x C S. unfold current. destruct (off <? 8); eexists; eexists; (split; [reflexivity|]); repeat split; try congruence; lia. }
  assert (CurM : forall off t, big_ok t off (Some (current off Mem))).
  { intros off x. unfold current. destruct (off <? 8) eqn:O; eexists; eexists; (split; [reflexivity|]); repeat split; try congruence; [tauto | intros _; right; split; [reflexivity | lia]]. }
  assert (PB : forall t sz off lo hi, size t = sz -> lo <> SseUp -> hi <> SseUp -> big_ok t off (Some (post_merge sz lo hi))).
  { intros x sz off lo hi E A B. destruct (post_big sz lo hi A B) as (a & b & -> & C1 & C2 & C3). exists a, b. split; [reflexivity|]. rewrite E. tauto. }
  induction t as [|n| |n| | |u s a ms IH|b n IH|v n] using ty_induction; intros L off W.
  - destruct L.
  - cbn [classify]. apply Cur; [discriminate|]. cbn in *. lia.
  - exists Integer, Integer. cbn. repeat split; try congruence; lia.
  - cbn [classify]. apply Cur; [discriminate|]. cbn in *. lia.
  - exfalso. destruct (W (Scalar off 16 KWide) (or_introl eq_refl)) as [H|[H|[H _]]]; discriminate H.
  - exists Integer, Integer. cbn. repeat split; try congruence; lia.
  - apply laid_agg in L. destruct L as (La & Ls & NE & _ & L). rewrite classify_agg. destruct (64 <? s) eqn:S; [apply CurM|].
    assert (Gen : forall from lo hi, Forall (fun m => laid g (snd m) -> forall off, no_wide (snd m) off -> big_ok (snd m) off (classify g nm (snd m) off)) ms -> laid_ms g u s from ms ->
      no_wide (TAgg u s a ms) off -> low lo -> low hi -> big_ok (TAgg u s a ms) off (members_loop (classify g nm) g u s off ms lo hi)).
    { clear IH L NE W. intros from lo hi F L W A B. unfold no_wide in W. rewrite scalars_agg in W.
      assert (G' : big_ok (TAgg u s a []) off (members_loop (classify g nm) g u s off ms lo hi)); [|exact G'].
      revert from lo hi F L W A B. induction ms as [|[mo m] r IHr]; intros from lo hi F L W A B; cbn [members_loop].
      - apply PB; [reflexivity | unfold low in *; intuition congruence..].
      - cbn [laid_ms] in L. destruct L as (L1 & L2 & L3 & L4 & L5). cbn [scalars_ms] in W. pose proof (Forall_inv F) as Fm. cbn [snd] in Fm. apply Forall_inv_tail in F.
        destruct ((16 <? s) && ((negb u && negb (s =? size m)) || (avx g <? s))) eqn:C1; [apply PB; [reflexivity | discriminate | unfold low in *; intuition congruence]|].
        destruct (negb ((off + mo) mod align g m =? 0)) eqn:C2; [apply PB; [reflexivity | discriminate | unfold low in *; intuition congruence]|].
        destruct (Fm L4 (off + mo) ltac:(intros x Hx; apply W, in_or_app; auto)) as (fl & fh & E & R1 & R2 & R3). rewrite E, !low_merge by assumption.
        destruct (ceq (join lo fl) Mem || ceq (join hi fh) Mem) eqn:C3.
        + apply PB; [reflexivity | apply join_up; assumption | apply join_up; assumption].
        + apply IHr with (from := if u then 0 else mo + size m); try assumption.
          * intros x Hx. apply W, in_or_app. auto.
          * apply orb_false_elim in C3. apply low_join2; tauto.
          * apply orb_false_elim in C3. apply low_join2; tauto. }
    apply Gen with (from := 0); try assumption; left; reflexivity.
  - cbn [laid] in L. destruct L as [Ln L]. rewrite classify_array. cbv zeta. set (sz := size b * Z.of_nat n). destruct (64 <? sz); [apply CurM|].
    destruct (negb (off mod align g b =? 0)).
    { unfold current. destruct (off <? 8); apply PB; try discriminate; reflexivity. }
    destruct ((16 <? sz) && (negb (sz =? size b) || (avx g <? sz))); [exists Mem, No; repeat split; try congruence; tauto|].
    assert (Gen : forall k o lo hi, (forall x, In x (scalars_el b k o) -> s_kind x = KInt \/ s_kind x = KSse \/ s_kind x = KMem /\ s_size x = 8) -> low lo -> low hi ->
      big_ok (TArray b n) off (elements_loop (classify g nm b) sz (size b) k o lo hi)).
    { induction k as [|k IHk]; intros o lo hi W' A B; cbn [elements_loop].
      - apply PB; [reflexivity | unfold low in *; intuition congruence..].
      - cbn [scalars_el] in W'. destruct (IH L o ltac:(intros x Hx; apply W', in_or_app; auto)) as (fl & fh & E & R1 & R2 & R3). rewrite E, !low_merge by assumption.
        destruct (ceq (join lo fl) Mem || ceq (join hi fh) Mem) eqn:C3.
        + apply PB; [reflexivity | apply join_up; assumption | apply join_up; assumption].
        + apply IHk.
          * intros x Hx. apply W', in_or_app. auto.
          * apply orb_false_elim in C3. apply low_join2; tauto.
          * apply orb_false_elim in C3. apply low_join2; tauto. }
    unfold no_wide in W. rewrite scalars_array in W. destruct (Gen n off No No W (or_introl eq_refl) (or_introl eq_refl)) as (lo & hi & E & R1 & R2 & R3). rewrite E. unfold checked.
    replace (ceq hi SseUp && negb (ceq lo Sse)) with false by (destruct hi; try reflexivity; congruence). exists lo, hi. split; [reflexivity | tauto].
  - destruct (W (Scalar off (size (TVec v n)) (vector_kind v (size (TVec v n)))) (or_introl eq_refl)) as [H|[H|[H H']]]; cbn [s_kind s_size] in *; cbn [classify]; change (pow2_up (vsize1 v * n)) with (size (TVec v n));
      unfold classify_vector; cbv zeta; change (pow2_up (vsize1 v * n)) with (size (TVec v n)).
    + assert (S : size (TVec v n) <= 4). { unfold vector_kind in H. destruct (size (TVec v n) <=? 4) eqn:S; [lia|]. destruct (size (TVec v n) =? 8); [destruct v as [| [| [[[]|[]|]|[[]|[|[]|]|]|]|]|]; discriminate H|]. destruct (size (TVec v n) =? 16); discriminate H. }
      cbn [laid] in L. pose proof (pow2_up_small (vsize1 v * n) ltac:(change (pow2_up (vsize1 v * n)) with (size (TVec v n)); lia)) as C. change (pow2_up (vsize1 v * n)) with (size (TVec v n)) in C.
      replace ((size (TVec v n) =? 1) || (size (TVec v n) =? 2) || (size (TVec v n) =? 4)) with true by (cbn [In] in C; lia).
      unfold current. destruct (off <? 8); destruct (negb _); eexists; eexists; (split; [reflexivity|]); repeat split; try congruence; lia.
    + assert (S : size (TVec v n) = 8). { unfold vector_kind in H. destruct (size (TVec v n) <=? 4) eqn:S; [discriminate H|]. destruct (size (TVec v n) =? 8) eqn:S8; [lia|]. destruct (size (TVec v n) =? 16); discriminate H. }
      rewrite S. cbn [Z.eqb orb Pos.eqb].
      assert (Plain : big_ok (TVec v n) off (Some (let '(lo, hi) := current off Sse in if negb (off =? 0) && negb (off =? 8) then (lo, lo) else (lo, hi)))).
      { unfold current. destruct (off <? 8); destruct (negb (off =? 0) && negb (off =? 8)); eexists; eexists; (split; [reflexivity|]); repeat split; try congruence; lia. }
      destruct v as [k|k|]; try exact Plain. destruct k as [|k|k]; try exact Plain. destruct k as [k|k|]; try exact Plain. destruct k as [k|k|]; try exact Plain. destruct k as [k|k|]; try exact Plain. destruct k as [k|k|]; try exact Plain. apply CurM.
    + rewrite H'. cbn [Z.eqb orb Pos.eqb].
      assert (Plain : big_ok (TVec v n) off (Some (let '(lo, hi) := current off Sse in if negb (off =? 0) && negb (off =? 8) then (lo, lo) else (lo, hi)))).
      { unfold current. destruct (off <? 8); destruct (negb (off =? 0) && negb (off =? 8)); eexists; eexists; (split; [reflexivity|]); repeat split; try congruence; lia. }
      destruct v as [k|k|]; try exact Plain. destruct k as [|k|k]; try exact Plain. destruct k as [k|k|]; try exact Plain. destruct k as [k|k|]; try exact Plain. destruct k as [k|k|]; try exact Plain. destruct k as [k|k|]; try exact Plain. apply CurM.
Qed.
Lemma classify_beyond g nm t : target_ok g -> laid g t -> avx g < size t -> classify g nm t 0 = Some (Mem, No).
Proof.
  intros G L A. assert (A16 : 16 <= avx g) by (destruct G as [[->|[->| ->]] _]; lia). destruct t as [|? | |? | | |u z a members|t len|base len]; cbn [laid size] in *; try (exfalso; cbn [In] in *; lia).
  - cbn [laid] in L. rewrite classify_agg. destruct (64 <? z) eqn:S; [reflexivity|]. destruct members as [|[mo m] r]; [tauto|]. cbn [members_loop].
    replace (16 <? z) with true by lia. replace (avx g <? z) with true by lia. rewrite orb_true_r. cbn [andb]. unfold post_merge. cbn [ceq rank Z.eqb]. replace (16 <? z) with true by lia. reflexivity.
  - rewrite classify_array. cbv zeta. destruct (64 <? size t * Z.of_nat len) eqn:S; [reflexivity|]. rewrite Z.mod_0_l by (pose proof (align_pos g t G (proj2 L)); lia). cbn [Z.eqb negb].
    replace (16 <? size t * Z.of_nat len) with true by lia. replace (avx g <? size t * Z.of_nat len) with true by lia. rewrite orb_true_r. reflexivity.
  - cbn [classify]. unfold classify_vector. cbv zeta. set (z := pow2_up (vsize1 base * len)) in *. replace (z =? 1) with false by lia. replace (z =? 2) with false by lia. replace (z =? 4) with false by lia. replace (z =? 8) with false by lia. replace (z =? 16) with false by lia.
    replace (z <=? avx g) with false by lia. rewrite andb_false_r. reflexivity.
Qed.

(** The scalars of a type. *)
Lemma in_ms s off ms : In s (scalars_ms off ms) <-> exists mo m, In (mo, m) ms /\ In s (scalars m (off + mo)).
Proof.
  induction ms as [|[mo m] r IH]; cbn [scalars_ms]; [split; [intros [] | intros (a & b & [] & _)]|]. rewrite in_app_iff, IH. split.
  - intros [H|(a & b & H & H')]; [exists mo, m | exists a, b]; cbn; auto.
  - intros (a & b & [H|H] & H'); [injection H as -> ->; auto | right; exists a, b; auto].
Qed.
Lemma in_el s b n off : In s (scalars_el b n off) <-> exists i, 0 <= i < Z.of_nat n /\ In s (scalars b (off + size b * i)).
Proof.
  revert off. induction n as [|n IH]; intro off; cbn [scalars_el]; [split; [intros [] | intros (i & H & _); lia]|]. rewrite in_app_iff, IH. split.
  - intros [H|(i & H & H')]; [exists 0 | exists (i + 1)]; (split; [lia|]); [replace (off + size b * 0) with off by ring; exact H | replace (off + size b * (i + 1)) with (off + size b + size b * i) by ring; exact H'].
  - intros (i & H & H'). destruct (Z.eq_dec i 0) as [->|N]; [left; replace off with (off + size b * 0) by ring; exact H'|].
    right. exists (i - 1). split; [lia|]. replace (off + size b + size b * (i - 1)) with (off + size b * i) by ring. exact H'.
Qed.
Definition shift (d : Z) (s : scalar) : scalar := Scalar (s_off s + d) (s_size s) (s_kind s).
Lemma shift_ms d off ms : Forall (fun m => forall off d, scalars (snd m) (off + d) = map (shift d) (scalars (snd m) off)) ms -> scalars_ms (off + d) ms = map (shift d) (scalars_ms off ms).
Proof.
  induction ms as [|[mo m] r IH]; intro F; [reflexivity|]. cbn [scalars_ms]. rewrite map_app, <- IH by exact (Forall_inv_tail F). f_equal.
  rewrite <- (Forall_inv F). cbn [snd]. f_equal. ring.
Qed.
Lemma scalars_shift t : forall off d, scalars t (off + d) = map (shift d) (scalars t off).
Proof.
  induction t as [|n| |n| | |u s a ms IH|b n IH|v n] using ty_induction; intros off d; try reflexivity.
  - rewrite !scalars_agg. apply shift_ms, IH.
  - rewrite !scalars_array. revert off. induction n as [|n IHn]; intro off; [reflexivity|]. cbn [scalars_el]. rewrite map_app, <- IHn, <- IH. f_equal. f_equal. ring.
Qed.
Lemma scalars_at t off s : In s (scalars t off) <-> exists s', In s' (scalars t 0) /\ s = shift off s'.
Proof.
  replace off with (0 + off) at 1 by ring. rewrite scalars_shift, in_map_iff. split; intros (x & A & B); exists x; auto.
Qed.
Lemma in_laid_ms g u s from ms mo m : 0 <= from -> laid_ms g u s from ms -> In (mo, m) ms -> from <= mo /\ mo + size m <= s /\ laid g m.
Proof.
  revert from. induction ms as [|[o x] r IH]; intros from F L I; [destruct I|]. cbn [laid_ms] in L. destruct L as (L1 & L2 & L3 & L4 & L5). destruct I as [I|I]; [injection I as -> ->; auto|].
  pose proof (size_pos g x L4). destruct u; [specialize (L2 eq_refl); subst o; assert (from = 0) by lia; subst from; apply (IH 0); auto|]. destruct (IH (o + size x) ltac:(lia) L5 I) as (X1 & X2 & X3). split; [lia | auto].
Qed.
Lemma scalar_in g t : laid g t -> forall s, In s (scalars t 0) -> 0 <= s_off s /\ 0 < s_size s /\ s_off s + s_size s <= size t.
Proof.
  induction t as [|n| |n| | |u sz a ms IH|b n IH|v n] using ty_induction; intros L s I.
  - destruct I.
  - destruct I as [<-|[]]. cbn in *. lia.
  - destruct I as [<-|[]]. cbn in *. lia.
  - destruct I as [<-|[]]. cbn in *. lia.
  - destruct I as [<-|[]]. cbn in *. lia.
  - destruct I as [<-|[]]. cbn in *. lia.
  - apply laid_agg in L. destruct L as (_ & _ & _ & _ & L). rewrite scalars_agg, in_ms in I. destruct I as (mo & m & I & J). apply scalars_at in J. destruct J as (s' & J & ->).
    destruct (in_laid_ms g u sz 0 ms mo m ltac:(lia) L I) as (A & B & C). rewrite Forall_forall in IH. destruct (IH (mo, m) I C s' J) as (D & E & F). cbn [size shift s_off s_size]. cbn [snd] in F. lia.
  - cbn [laid] in L. destruct L as [Ln L]. rewrite scalars_array, in_el in I. destruct I as (i & I & J). apply scalars_at in J. destruct J as (s' & J & ->). destruct (IH L s' J) as (A & B & C). cbn [size shift s_off s_size].
    assert (0 <= size b * i) by (apply Z.mul_nonneg_nonneg; lia). assert (size b * i + size b <= size b * Z.of_nat n) by (rewrite <- Z.mul_succ_r; apply Z.mul_le_mono_nonneg_l; lia). lia.
  - destruct I as [<-|[]]. cbn [s_off s_size]. pose proof (size_pos g _ L). lia.
Qed.
(** The first scalar is at the start. *)
Lemma scalar_first g t : laid g t -> exists s, In s (scalars t 0) /\ s_off s = 0.
Proof.
  induction t as [|n| |n| | |u sz a ms IH|b n IH|v n] using ty_induction; intro L; try (eexists; split; [left; reflexivity | reflexivity]).
  - destruct L.
  - apply laid_agg in L. destruct L as (_ & _ & NE & Z0 & L). destruct ms as [|[mo m] r]; [congruence|]. subst mo. cbn [laid_ms] in L. destruct (Forall_inv IH) as (s & I & E); [tauto|]. cbn [snd] in I.
    exists s. split; [|exact E]. rewrite scalars_agg. cbn [scalars_ms]. apply in_or_app. left. exact I.
  - cbn [laid] in L. destruct L as [Ln L]. destruct (IH L) as (s & I & E). exists s. split; [|exact E]. rewrite scalars_array. destruct n; [lia|]. cbn [scalars_el]. apply in_or_app. left. exact I.
Qed.
(** Scalars of a small type in registers lie at multiples of their size. *)
Lemma scalar_aligned g t : target_ok g -> laid g t -> forall off, 0 <= off -> off + size t <= 16 -> off mod align g t = 0 -> aligned g t off = true -> forall s, In s (scalars t off) ->
  In (s_size s) [1; 2; 4; 8] /\ s_off s mod s_size s = 0 \/ s_size s = 16 /\ s_off s = 0.
Proof.
  intro G. induction t as [|n| |n| | |u sz a ms IH|b n IH|v n] using ty_induction; intros L off O B M A s I.
  - destruct I.
  - destruct I as [<-|[]]. left. split; [exact L | exact M].
  - destruct I as [<-|[]]. right. cbn in *. lia.
  - destruct I as [<-|[]]. left. split; [cbn in *; tauto | exact M].
  - destruct I as [<-|[]]. right. cbn in *. lia.
  - destruct I as [<-|[]]. right. cbn in *. lia.
  - apply laid_agg in L. destruct L as (_ & _ & _ & _ & L). rewrite scalars_agg, in_ms in I. destruct I as (mo & m & I & J). rewrite aligned_agg in A. cbn [size] in B.
    destruct (in_laid_ms g u sz 0 ms mo m ltac:(lia) L I) as (C & D & E). rewrite Forall_forall in IH.
    assert (X : (off + mo) mod align g m = 0 /\ aligned g m (off + mo) = true).
    { clear - A I. induction ms as [|[o x] r IHr]; [destruct I|]. cbn [aligned_ms] in A. apply andb_prop in A. destruct A as [A A2]. apply andb_prop in A. destruct A as [A A1]. destruct I as [I|I]; [injection I as -> ->; split; [lia | exact A1] | auto]. }
    apply (IH (mo, m) I E (off + mo)); cbn [snd]; try lia; tauto.
  - cbn [laid] in L. destruct L as [Ln L]. rewrite scalars_array, in_el in I. destruct I as (i & I & J). rewrite aligned_array in A. cbn [size align] in B, M.
    assert (0 <= size b * i) by (apply Z.mul_nonneg_nonneg; pose proof (size_pos g b L); lia). assert (size b * i + size b <= size b * Z.of_nat n) by (rewrite <- Z.mul_succ_r; apply Z.mul_le_mono_nonneg_l; pose proof (size_pos g b L); lia).
    assert (X : (off + size b * i) mod align g b = 0 /\ aligned g b (off + size b * i) = true).
    { clear - A I. revert off i A I. induction n as [|n IHn]; intros off i A I; [lia|]. cbn [aligned_el] in A. apply andb_prop in A. destruct A as [A A2]. apply andb_prop in A. destruct A as [A A1].
      destruct (Z.eq_dec i 0) as [->|N]; [replace (off + size b * 0) with off by ring; split; [lia | exact A1]|]. destruct (IHn (off + size b) (i - 1) A2 ltac:(lia)) as [X Y]. replace (off + size b + size b * (i - 1)) with (off + size b * i) in X, Y by ring. auto. }
    apply (IH L (off + size b * i)); try lia; tauto.
  - destruct I as [<-|[]]. cbn [s_size s_off]. pose proof L as [V N]. rewrite (vec_align g v n G V N) in M by lia. pose proof (pow2_up_small (vsize1 v * n) ltac:(change (pow2_up (vsize1 v * n)) with (size (TVec v n)); lia)) as C.
    change (pow2_up (vsize1 v * n)) with (size (TVec v n)) in C. cbn [In] in C. destruct C as [C|[C|[C|[C|[C|[]]]]]]; rewrite <- C in *; [left|left|left|left|right]; cbn [In]; intuition lia.
Qed.
