(** Classes of arguments on x86-64: the proofs, continued. *)
From Coq Require Import ZArith List Bool Lia ZifyBool.
From Verif Require Import AbiModel AbiSpec AbiProofs.
Import ListNotations.
Open Scope Z_scope.

Lemma in_eightbyte off n : In n [1; 2; 4; 8] -> 0 <= off -> off mod n = 0 -> off < 8 -> off + n <= 8.
Proof.
  intros N O M L. apply Z.mod_divide in M; [|cbn in N; lia]. destruct M as [q ->]. cbn [In] in N. destruct N as [<-|[<-|[<-|[<-|[]]]]]; lia.
Qed.
Lemma scalar_classes off n k c : In n [1; 2; 4; 8] -> 0 <= off -> off + n <= 16 -> off mod n = 0 -> k = KInt /\ c = Integer \/ k = KSse /\ c = Sse ->
  classes [Scalar off n k] = current off c.
Proof.
  intros N O I M K. pose proof (in_eightbyte off n N O M) as E. assert (P : 1 <= n) by (cbn in N; lia).
  unfold classes, eightbyte, current. cbn [existsb]. unfold has_int, has_sse, has_up, touches. cbn [s_kind s_off s_size].
  destruct K as [[-> ->]|[-> ->]]; destruct (off <? 8) eqn:L.
  - replace (off <? 8 * (0 + 1)) with true by lia. replace (8 * 0 <? off + n) with true by lia. replace (8 * 1 <? off + n) with false by lia. rewrite !andb_false_r. reflexivity.
  - replace (off <? 8 * (0 + 1)) with false by lia. replace (off <? 8 * (1 + 1)) with true by lia. replace (8 * 1 <? off + n) with true by lia. reflexivity.
  - replace (off <? 8 * (0 + 1)) with true by lia. replace (8 * 0 <? off + n) with true by lia. replace (8 * 1 <? off + n) with false by lia. rewrite !andb_false_r. reflexivity.
  - replace (off <? 8 * (0 + 1)) with false by lia. replace (off <? 8 * (1 + 1)) with true by lia. replace (8 * 1 <? off + n) with true by lia. reflexivity.
Qed.
Lemma pow2_up_small w : pow2_up w <= 16 -> In (pow2_up w) [1; 2; 4; 8; 16].
Proof.
  intro H. unfold pow2_up in *. pose proof (Z.log2_up_nonneg w) as P. destruct (Z_le_gt_dec (Z.log2_up w) 4) as [L|G].
  - assert (C : Z.log2_up w = 0 \/ Z.log2_up w = 1 \/ Z.log2_up w = 2 \/ Z.log2_up w = 3 \/ Z.log2_up w = 4) by lia. destruct C as [->|[->|[->|[->| ->]]]]; cbn; tauto.
  - assert (2 ^ 5 <= 2 ^ Z.log2_up w) by (apply Z.pow_le_mono_r; lia). lia.
Qed.
Lemma vec_align g v n : target_ok g -> scalar_ok v -> 0 < n -> size (TVec v n) <= 16 -> align g (TVec v n) = size (TVec v n).
Proof.
  intros G V N S. cbn [align size] in *. replace (n =? 0) with false by lia. pose proof (vsize1_pos v V) as P. assert (P' : 0 < vsize1 v * n) by (apply Z.mul_pos_pos; lia).
  pose proof (pow2_up_ge _ P'). destruct (negb (max_vec g =? 0) && (max_vec g <? vsize1 v * n)) eqn:E; [|reflexivity].
  destruct G as [_ [G|(k & Hk & G)]]; [lia|]. assert (2 ^ 4 <= 2 ^ k) by (apply Z.pow_le_mono_r; lia). lia.
Qed.
Definition result_ok (g : target) (t : ty) (off : Z) (r : option (class * class)) : Prop :=
  exists lo hi, r = Some (lo, hi) /\ if in_memory g t off then lo = Mem \/ hi = Mem /\ 8 <= off else (lo, hi) = classes (scalars t off).
Lemma vector_small g nm v n off : target_ok g -> scalar_ok v -> 0 < n -> 0 <= off -> off + size (TVec v n) <= 16 -> off mod size (TVec v n) = 0 ->
  result_ok g (TVec v n) off (Some (classify_vector g nm v n off)).
Proof.
  intros G V N O I M. unfold result_ok, in_memory. cbn [aligned scalars negb orb existsb s_kind]. assert (S : size (TVec v n) <= 16) by lia. change (size (TVec v n)) with (pow2_up (vsize1 v * n)) in *. unfold classify_vector. cbv zeta.
  set (s := pow2_up (vsize1 v * n)) in *. pose proof (pow2_up_small _ S) as C. fold s in C. unfold vector_kind. cbn [In] in C.
  assert (K4 : In s [1; 2; 4; 8] -> s <= 4 -> (s =? 1) || (s =? 2) || (s =? 4) = true -> exists lo hi,
    (let '(lo, hi) := current off Integer in if negb ((off + s - 1) / 8 =? off / 8) then (lo, lo) else (lo, hi)) = (lo, hi) /\ (lo, hi) = classes [Scalar off s KInt]).
  { intros I4 L4 _. rewrite (scalar_classes off s KInt Integer I4 O I M) by auto. pose proof (in_eightbyte off s I4 O M) as E.
    replace ((off + s - 1) / 8 =? off / 8) with true; [destruct (current off Integer) as [lo hi]; exists lo, hi; split; reflexivity|].
    symmetry. apply Z.eqb_eq. destruct (Z_lt_ge_dec off 8) as [L|L].
    - rewrite !Z.div_small; [reflexivity| |]; cbn in I4; lia.
    - rewrite <- (Z.div_unique off 8 1 (off - 8)), <- (Z.div_unique (off + s - 1) 8 1 (off + s - 1 - 8)); cbn in I4; lia. }
  destruct C as [C|[C|[C|[C|[C|[]]]]]]; rewrite <- C in *; cbn [Z.leb Z.eqb orb Z.compare Pos.compare Pos.compare_cont Pos.eqb] in *.
  1-3: destruct K4 as (lo & hi & E1 & E2); [cbn; tauto | lia | reflexivity|]; exists lo, hi; split; [f_equal; exact E1 | exact E2].
  - assert (D : off = 0 \/ off = 8). { apply Z.mod_divide in M; [|lia]. destruct M as [q ->]. lia. }
    assert (SS : let '(lo, hi) := current off Sse in (if negb (off =? 0) && negb (off =? 8) then (lo, lo) else (lo, hi)) = current off Sse) by (destruct D as [->| ->]; reflexivity).
    assert (Plain : exists lo hi, Some (let '(lo, hi) := current off Sse in if negb (off =? 0) && negb (off =? 8) then (lo, lo) else (lo, hi)) = Some (lo, hi) /\ (lo, hi) = classes [Scalar off 8 KSse]).
    { rewrite (scalar_classes off 8 KSse Sse) by (auto; cbn; tauto). destruct (current off Sse) as [lo hi]. rewrite SS. exists lo, hi. split; reflexivity. }
    assert (MM : exists lo hi, Some (current off Mem) = Some (lo, hi) /\ (lo = Mem \/ hi = Mem /\ 8 <= off)) by (destruct D as [->| ->]; eexists; eexists; (split; [reflexivity|]); [left | right; split]; try reflexivity; lia).
    destruct v as [k|k|]; try exact Plain. destruct k as [|k|k]; try exact Plain. destruct k as [k|k|]; try exact Plain. destruct k as [k|k|]; try exact Plain. destruct k as [k|k|]; try exact Plain. destruct k as [k|k|]; try exact Plain. exact MM.
  - assert (off = 0) by lia. subst off. exists Sse, SseUp. split; [rewrite andb_false_r; reflexivity | reflexivity].
Qed.

Lemma mem_app l l' : existsb (fun s => match s_kind s with KMem => true | _ => false end) (l ++ l') = existsb (fun s => match s_kind s with KMem => true | _ => false end) l || existsb (fun s => match s_kind s with KMem => true | _ => false end) l'.
Proof. apply existsb_app. Qed.
Notation mems := (existsb (fun s => match s_kind s with KMem => true | _ => false end)).
Lemma step_ok lo hi l fl fh l' : agree lo hi l -> (fl, fh) = classes l' -> merge lo fl = Some (join lo fl) /\ merge hi fh = Some (join hi fh) /\ agree (join lo fl) (join hi fh) (l ++ l') /\ ceq (join lo fl) Mem || ceq (join hi fh) Mem = false.
Proof.
  intros A E. pose proof (classes_agree l') as A'. rewrite <- E in A'. cbn [fst snd] in A'. destruct (agree_join lo hi fl fh l l' A A') as (J & N1 & N2).
  assert (NL : lo <> Mem) by (destruct A as [-> _]; apply eightbyte_not_mem).
  assert (NH : hi <> Mem) by (destruct A as [_ [->|(_ & -> & _)]]; [apply eightbyte_not_mem | discriminate]).
  split; [apply merge_join, NL|]. split; [apply merge_join, NH|]. split; [exact J|]. destruct (join lo fl), (join hi fh); try congruence; reflexivity.
Qed.
Lemma step_mem sz lo hi l fl fh : agree lo hi l -> fl = Mem \/ fh = Mem -> exists lo' hi', merge lo fl = Some lo' /\ merge hi fh = Some hi' /\ ceq lo' Mem || ceq hi' Mem = true /\ fst (post_merge sz lo' hi') = Mem.
Proof.
  intros A E. assert (NL : lo <> Mem) by (destruct A as [-> _]; apply eightbyte_not_mem).
  assert (NH : hi <> Mem) by (destruct A as [_ [->|(_ & -> & _)]]; [apply eightbyte_not_mem | discriminate]).
  exists (join lo fl), (join hi fh). split; [apply merge_join, NL|]. split; [apply merge_join, NH|].
  assert (J : join lo fl = Mem \/ join hi fh = Mem) by (destruct E as [->| ->]; [left; destruct lo | right; destruct hi]; reflexivity).
  split; [destruct J as [->| ->]; [reflexivity | apply orb_true_r] | apply post_mem, J].
Qed.
Lemma post_up sz lo hi : sz <= 16 -> fst (post_merge sz lo hi) = Mem -> snd (post_merge sz lo hi) <> SseUp.
Proof. intro S. unfold post_merge. replace (16 <? sz) with false by lia. destruct lo, hi; cbn; congruence. Qed.
Lemma agree_nil : agree No No []. Proof. split; [reflexivity | left; reflexivity]. Qed.
Lemma post_result g t off sz lo hi : in_memory g t off = true -> fst (post_merge sz lo hi) = Mem -> result_ok g t off (Some (post_merge sz lo hi)).
Proof. intros M F. destruct (post_merge sz lo hi) as [a b]. exists a, b. split; [reflexivity|]. rewrite M. left. exact F. Qed.

Lemma classify_small g nm t : target_ok g -> laid g t -> forall off, 0 <= off -> off + size t <= 16 -> off mod align g t = 0 -> result_ok g t off (classify g nm t off).
Proof.
  intros G. induction t as [|n| |n| | |u s a ms IH|b n IH|v n] using ty_induction; intros L off O I M.
  - destruct L.
  - cbn [laid size align] in *. exists (fst (current off Integer)), (snd (current off Integer)). split; [destruct (off <? 8) eqn:E; unfold current; cbn [classify]; unfold current; rewrite E; reflexivity|].
    unfold in_memory. cbn [aligned scalars negb orb existsb s_kind]. rewrite (scalar_classes off n KInt Integer) by auto. destruct (current off Integer); reflexivity.
  - cbn [size] in I. assert (off = 0) by lia. subst. exists Integer, Integer. split; reflexivity.
  - cbn [laid size align] in *. assert (L' : In n [1; 2; 4; 8]) by (cbn in *; tauto). exists (fst (current off Sse)), (snd (current off Sse)). split; [unfold current; cbn [classify]; unfold current; destruct (off <? 8); reflexivity|].
    unfold in_memory. cbn [aligned scalars negb orb existsb s_kind]. rewrite (scalar_classes off n KSse Sse) by auto. destruct (current off Sse); reflexivity.
  - cbn [size] in I. assert (off = 0) by lia. subst. exists Sse, SseUp. split; reflexivity.
  - cbn [size] in I. assert (off = 0) by lia. subst. exists Integer, Integer. split; reflexivity.
  - apply laid_agg in L. destruct L as (La & Ls & NE & _ & L). cbn [size] in I. rewrite classify_agg. replace (64 <? s) with false by lia.
    assert (Gen : forall ms from lo hi l, Forall (fun m => laid g (snd m) -> forall off, 0 <= off -> off + size (snd m) <= 16 -> off mod align g (snd m) = 0 -> result_ok g (snd m) off (classify g nm (snd m) off)) ms ->
      0 <= from -> laid_ms g u s from ms -> agree lo hi l ->
      exists rl rh, members_loop (classify g nm) g u s off ms lo hi = Some (rl, rh) /\
        if negb (aligned_ms g off ms) || mems (scalars_ms off ms) then rl = Mem else (rl, rh) = classes (l ++ scalars_ms off ms)).
    { clear IH L NE ms M. induction ms as [|[mo m] r IHr]; intros from lo hi l F Fr L A; cbn [members_loop aligned_ms scalars_ms].
      - destruct (post_merge s lo hi) as [pl ph] eqn:E. exists pl, ph. split; [reflexivity|]. cbn [negb orb existsb]. rewrite app_nil_r, <- E. apply agree_post; [lia | exact A].
      - replace (16 <? s) with false by lia. cbn [andb]. cbn [laid_ms] in L. destruct L as (L1 & L2 & L3 & L4 & L5). pose proof (Forall_inv F) as Fm. cbn [snd] in Fm. apply Forall_inv_tail in F.
        destruct ((off + mo) mod align g m =? 0) eqn:AL; cbn [negb andb orb].
        2:{ destruct (post_merge s Mem hi) as [pl ph] eqn:E. exists pl, ph. split; [reflexivity|]. pose proof (post_mem s Mem hi (or_introl eq_refl)) as PM. rewrite E in PM. exact PM. }
        destruct (Fm L4 (off + mo) ltac:(lia) ltac:(lia) ltac:(lia)) as (fl & fh & E & R). rewrite E. unfold in_memory in R. rewrite mem_app.
        destruct (negb (aligned g m (off + mo)) || mems (scalars m (off + mo))) eqn:B.
        + destruct (step_mem s lo hi l fl fh A ltac:(tauto)) as (lo' & hi' & E1 & E2 & E3 & E4). rewrite E1, E2, E3. destruct (post_merge s lo' hi') as [pl ph]. exists pl, ph. split; [reflexivity|].
          replace (negb (aligned g m (off + mo) && aligned_ms g off r) || (mems (scalars m (off + mo)) || mems (scalars_ms off r))) with true; [exact E4|].
          destruct (aligned g m (off + mo)); cbn [negb orb andb] in B |- *; [rewrite B, orb_true_r; reflexivity | reflexivity].
        + apply orb_false_elim in B. destruct B as [B1 B2]. apply negb_false_iff in B1. rewrite B1, B2. cbn [andb orb].
          destruct (step_ok lo hi l fl fh (scalars m (off + mo)) A R) as (E1 & E2 & A' & E3). rewrite E1, E2, E3.
          assert (P : 0 < size m) by (apply (size_pos g); exact L4).
          destruct (IHr (if u then 0 else mo + size m) _ _ _ F ltac:(destruct u; lia) L5 A') as (rl & rh & E4 & R4). exists rl, rh. split; [exact E4|]. rewrite app_assoc. exact R4. }
    destruct (Gen ms 0 No No [] IH ltac:(lia) L agree_nil) as (rl & rh & E & R). exists rl, rh. split; [exact E|]. unfold in_memory. rewrite aligned_agg, scalars_agg. cbn [app] in R.
    destruct (negb (aligned_ms g off ms) || mems (scalars_ms off ms)); [left; exact R | exact R].
  - cbn [laid] in L. destruct L as [Ln L]. cbn [size align] in I, M. rewrite classify_array. cbv zeta. pose proof (size_pos g b L) as P. replace (64 <? size b * Z.of_nat n) with false by lia.
    replace (off mod align g b =? 0) with true by lia. cbn [negb]. replace (16 <? size b * Z.of_nat n) with false by lia. cbn [andb].
    set (sz := size b * Z.of_nat n) in *. assert (Hs : sz <= 16) by lia.
    assert (Gen : forall k o lo hi l, 0 <= o -> o mod align g b = 0 -> o + size b * Z.of_nat k <= 16 -> agree lo hi l ->
      exists rl rh, elements_loop (classify g nm b) sz (size b) k o lo hi = Some (rl, rh) /\
        if negb (aligned_el g b k o) || mems (scalars_el b k o) then rl = Mem /\ rh <> SseUp else (rl, rh) = classes (l ++ scalars_el b k o)).
    { induction k as [|k IHk]; intros o lo hi l Ho Mo Io A; cbn [elements_loop aligned_el scalars_el].
      - destruct (post_merge sz lo hi) as [pl ph] eqn:E. exists pl, ph. split; [reflexivity|]. cbn [negb orb existsb]. rewrite app_nil_r, <- E. apply agree_post; [lia | exact A].
      - replace (o mod align g b =? 0) with true by lia. cbn [andb]. assert (Hk : size b * Z.of_nat (S k) = size b + size b * Z.of_nat k) by lia. assert (0 <= size b * Z.of_nat k) by (apply Z.mul_nonneg_nonneg; lia).
        destruct (IH L o Ho ltac:(lia) Mo) as (fl & fh & E & R). rewrite E. unfold in_memory in R. rewrite mem_app.
        destruct (negb (aligned g b o) || mems (scalars b o)) eqn:B.
        + destruct (step_mem sz lo hi l fl fh A ltac:(tauto)) as (lo' & hi' & E1 & E2 & E3 & E4). rewrite E1, E2, E3. pose proof (post_up sz lo' hi' Hs E4) as E5. destruct (post_merge sz lo' hi') as [pl ph]. exists pl, ph. split; [reflexivity|].
          replace (negb (aligned g b o && aligned_el g b k (o + size b)) || (mems (scalars b o) || mems (scalars_el b k (o + size b)))) with true; [split; assumption|].
          destruct (aligned g b o); cbn [negb orb andb] in B |- *; [rewrite B, orb_true_r; reflexivity | reflexivity].
        + apply orb_false_elim in B. destruct B as [B1 B2]. apply negb_false_iff in B1. rewrite B1, B2. cbn [andb orb].
          destruct (step_ok lo hi l fl fh (scalars b o) A R) as (E1 & E2 & A' & E3). rewrite E1, E2, E3.
          assert (Mo' : (o + size b) mod align g b = 0). { pose proof (align_pos g b G L). apply Z.mod_divide; [lia|]. apply Z.divide_add_r; [apply Z.mod_divide; lia | apply size_align; assumption]. }
          destruct (IHk (o + size b) _ _ _ ltac:(lia) Mo' ltac:(lia) A') as (rl & rh & E4 & R4). exists rl, rh. split; [exact E4|]. rewrite app_assoc. exact R4. }
    destruct (Gen n off No No [] O M ltac:(lia) agree_nil) as (rl & rh & E & R). cbn [app] in R. rewrite E. unfold checked.
    unfold result_ok, in_memory. rewrite aligned_array, scalars_array. destruct (negb (aligned_el g b n off) || mems (scalars_el b n off)).
    + destruct R as [-> R]. exists Mem, rh. split; [|left; reflexivity]. destruct rh; try reflexivity. congruence.
    + replace (ceq rh SseUp && negb (ceq rl Sse)) with false; [exists rl, rh; split; [reflexivity | exact R]|].
      injection R as -> ->. unfold ceq. destruct (eightbyte 1 (scalars_el b n off)), (eightbyte 0 (scalars_el b n off)); reflexivity.
  - cbn [laid] in L. destruct L as [V N]. cbn [classify]. apply vector_small; try assumption. rewrite <- (vec_align g v n G V N) by lia. exact M.
Qed.
