(** Arguments on x86-64: whole arguments, and lists of them. *)
From Coq Require Import ZArith List Bool Lia ZifyBool.
From Verif Require Import AbiModel AbiSpec AbiProofs AbiProofs2 AbiProofs3 AbiProofs4 AbiProofs5.
Import ListNotations.
Open Scope Z_scope.

Lemma scalar_wide g t : laid g t -> forall s, In s (scalars t 0) -> s_kind s = KWide -> s_size s = 16.
Proof.
  induction t as [|n| |n| | |u sz a ms IH|b n IH|v n] using ty_induction; intros L s I K.
  - destruct I.
  - destruct I as [<-|[]]. discriminate K.
  - destruct I as [<-|[]]. discriminate K.
  - destruct I as [<-|[]]. discriminate K.
  - destruct I as [<-|[]]. reflexivity.
  - destruct I as [<-|[]]. discriminate K.
  - apply laid_agg in L. destruct L as (_ & _ & _ & _ & L). rewrite scalars_agg, in_ms in I. destruct I as (mo & m & I & J). apply scalars_at in J. destruct J as (x & J & ->).
    destruct (in_laid_ms g u sz 0 ms mo m ltac:(lia) L I) as (A & B & C). rewrite Forall_forall in IH. apply (IH (mo, m) I C x J K).
  - cbn [laid] in L. destruct L as [Ln L]. rewrite scalars_array, in_el in I. destruct I as (i & I & J). apply scalars_at in J. destruct J as (x & J & ->). apply (IH L x J K).
  - destruct I as [<-|[]]. cbn [s_size s_off s_kind] in *. unfold vector_kind in K. destruct (size (TVec v n) <=? 4); [discriminate K|]. destruct (size (TVec v n) =? 8) eqn:E; [|destruct (size (TVec v n) =? 16) eqn:E'; [lia | discriminate K]].
    destruct v as [| [| [[[]|[]|]|[[]|[|[]|]|]|]|]|]; discriminate K.
Qed.
(** A scalar that fills a type without unions is its only one. *)
Lemma alone g t : laid g t -> plain t -> size t <= 16 -> forall s, In s (scalars t 0) -> s_size s = 16 -> scalars t 0 = [s].
Proof.
  induction t as [|n| |n| | |u sz a ms IH|b n IH|v n] using ty_induction; intros L P S s I Z; try (destruct I as [<-|[]]; reflexivity).
  - destruct I.
  - apply (proj1 (plain_agg _ _ _ _)) in P. destruct P as [-> P]. apply laid_agg in L. destruct L as (_ & _ & _ & Z0 & L). rewrite scalars_agg in *. apply in_ms in I. destruct I as (mo & m & I & J). change (0 + mo) with mo in J. cbn [size] in S.
    assert (E : ms = [(0, m)] /\ mo = 0).
    { pose proof J as J'. apply scalars_at in J'. destruct J' as (x & J' & Ex). destruct ms as [|[o y] r]; [destruct I|]. subst o. cbn [laid_ms] in L. destruct L as (L1 & L2 & L3 & L4 & L5). pose proof (size_pos g y L4) as Py. destruct I as [I|I].
      - injection I as <- ->. split; [|reflexivity]. f_equal. destruct r as [|[o2 x2] r]; [reflexivity|]. cbn [laid_ms] in L5. destruct L5 as (M1 & M2 & M3 & M4 & M5). pose proof (size_pos g x2 M4). pose proof (scalar_in g m L4 x J') as D. rewrite Ex in Z. cbn [shift s_size] in Z. lia.
      - destruct (in_laid_ms g false sz (0 + size y) r mo m ltac:(lia) L5 I) as (X1 & X2 & X3). pose proof (scalar_in g m X3 x J') as D. rewrite Ex in Z. cbn [shift s_size] in Z. lia. }
    destruct E as [-> ->]. cbn [scalars_ms]. change (0 + 0) with 0. rewrite app_nil_r. cbn [laid_ms] in L. cbn [plain_ms] in P. apply (Forall_inv IH); cbn [snd]; try tauto. lia.
  - cbn [laid] in L. destruct L as [Ln L]. cbn [plain] in P. cbn [size] in S. rewrite scalars_array in *. apply in_el in I. destruct I as (i & I & J). pose proof J as J'. apply scalars_at in J'. destruct J' as (x & J' & Ex). pose proof (scalar_in g b L x J') as D. rewrite Ex in Z. cbn [shift s_size] in Z.
    assert (n = 1)%nat. { destruct n as [|[|n]]; [lia | reflexivity|]. exfalso. assert (size b * 2 <= size b * Z.of_nat (Datatypes.S (Datatypes.S n))) by (apply Z.mul_le_mono_nonneg_l; lia). lia. }
    subst n. assert (i = 0) by lia. subst i. replace (0 + size b * 0) with 0 in * by ring. cbn [scalars_el]. rewrite app_nil_r. apply (IH L P); [lia | exact J |]. rewrite Ex. exact Z.
Qed.

Lemma touches_range e s : touches e s = true <-> s_off s < 8 * (e + 1) /\ 8 * e < s_off s + s_size s. Proof. unfold touches. lia. Qed.
Lemma eightbyte_sse e l s : eightbyte e l = Sse -> In s l -> touches e s = true -> s_kind s <> KInt.
Proof.
  unfold eightbyte. intros E I T K. destruct (existsb (has_int e) l) eqn:X; [discriminate E|]. assert (Y : existsb (has_int e) l = true); [|congruence]. apply existsb_exists. exists s. split; [exact I|]. unfold has_int. rewrite K. exact T.
Qed.
Lemma eightbyte_no e l s : eightbyte e l = No -> In s l -> s_kind s <> KMem -> s_kind s <> KWide -> touches e s = false.
Proof.
  unfold eightbyte. intros E I M W. destruct (existsb (has_int e) l) eqn:X; [discriminate E|]. destruct (existsb (has_sse e) l) eqn:Y; [discriminate E|].
  destruct (touches e s) eqn:T; [|reflexivity]. destruct (s_kind s) eqn:K; try congruence.
  - assert (Z : existsb (has_int e) l = true); [|congruence]. apply existsb_exists. exists s. split; [exact I|]. unfold has_int. rewrite K. exact T.
  - assert (Z : existsb (has_sse e) l = true); [|congruence]. apply existsb_exists. exists s. split; [exact I|]. unfold has_sse. rewrite K. exact T.
Qed.
Lemma eightbyte_some e l : eightbyte e l = Integer \/ eightbyte e l = Sse -> (forall s, In s l -> s_kind s <> KWide) -> exists s, In s l /\ touches e s = true.
Proof.
  unfold eightbyte. intros E W. destruct (existsb (has_int e) l) eqn:X.
  - apply existsb_exists in X. destruct X as (s & I & H). exists s. split; [exact I|]. unfold has_int in H. destruct (s_kind s); try discriminate H. exact H.
  - destruct (existsb (has_sse e) l) eqn:Y; [|destruct (existsb (has_up e) l); destruct E; discriminate]. apply existsb_exists in Y. destruct Y as (s & I & H). exists s. split; [exact I|]. unfold has_sse in H. destruct (s_kind s) eqn:K; try discriminate H; [exact H | exfalso; apply (W s I K)].
Qed.

Definition part_ok (a : abity) : Prop := 1 <= asize a <= 8 /\ asize a <= aalign a /\ In (aalign a) [1; 2; 4; 8].
Lemma int_part t off r : int_good t off r -> exists a, r = Some a /\ holds a t off /\ part_ok a /\ uses Integer a = 1 /\ uses Sse a = 0 /\ (forall n, a = AOdd n -> n = size t - off) /\ forall n, a <> AWide n.
Proof.
  intros (a & E & H & C). exists a. split; [exact E|]. split; [exact H|].
  destruct C as [->|[->|[->|[->|[-> C]]]]]; try (cbn; unfold part_ok; cbn; repeat split; try lia; try tauto; congruence).
  unfold part_ok. cbn [asize aalign uses]. repeat split; try lia; try congruence; [apply pow2_up_ge; lia|]. assert (X : pow2_up (size t - off) <= pow2_up 8) by (unfold pow2_up; apply Z.pow_le_mono_r; [lia | apply Z.log2_up_le_mono; lia]).
  change (pow2_up 8) with 8 in X. pose proof (pow2_up_small (size t - off) ltac:(lia)) as Y. cbn [In] in *. lia.
Qed.
Lemma sse_part t off a : In a [AFlt 2; AFlt 4; AFlt 8; AFloats; AHalfs 2; AHalfs 4] -> part_ok a /\ uses Integer a = 0 /\ uses Sse a = 1 /\ (forall n, a = AOdd n -> n = size t - off) /\ forall n, a <> AWide n.
Proof. cbn [In]. intros [<-|[<-|[<-|[<-|[<-|[<-|[]]]]]]]; unfold part_ok; cbn; repeat split; try lia; try tauto; congruence. Qed.

Lemma aligned_eight n al : In al [1; 2; 4; 8] -> 8 - al < n <= 8 -> aligned_offset n al = 8.
Proof.
  intros I B. unfold aligned_offset. cbn [In] in I. destruct I as [<-|[<-|[<-|[<-|[]]]]].
  - rewrite Z.div_1_r. lia.
  - rewrite <- (Z.div_unique (n + 2 - 1) 2 4 (n + 1 - 8)); lia.
  - rewrite <- (Z.div_unique (n + 4 - 1) 4 2 (n + 3 - 8)); lia.
  - rewrite <- (Z.div_unique (n + 8 - 1) 8 1 (n + 7 - 8)); lia.
Qed.
Lemma pair_good g t lo hi : target_ok g -> laid g t -> size t <= 16 -> aligned g t 0 = true -> no_spare t -> part_ok lo -> part_ok hi -> holds lo t 0 -> holds hi t 8 -> (exists s, In s (scalars t 0) /\ touches 1 s = true) ->
  pair lo hi = Some (Two lo hi).
Proof.
  intros G L S A N Plo Phi Hlo Hhi (s & I & T). apply touches_range in T. unfold pair.
  assert (Al : forall s, In s (scalars t 0) -> In (s_size s) [1; 2; 4; 8] /\ s_off s mod s_size s = 0 \/ s_size s = 16 /\ s_off s = 0).
  { intros x Ix. apply (scalar_aligned g t G L 0 ltac:(lia) ltac:(lia)); try assumption. rewrite Z.mod_0_l; [reflexivity | pose proof (align_pos g t G L); lia]. }
  destruct Plo as (A1 & A2 & A3). destruct Phi as (B1 & B2 & B3).
  assert (Full : (exists x, In x (scalars t 0) /\ s_size x = 16 /\ s_off x = 0) -> aligned_offset (asize lo) (aalign hi) = 8).
  { intros (x & Ix & Z & O). assert (D : data t 7) by (exists x; split; [exact Ix | lia]). specialize (Hlo 7 D ltac:(lia)). apply aligned_eight; [exact B3|]. cbn [In] in B3. lia. }
  assert (Gen : forall k s, In s (scalars t 0) -> 8 <= s_off s <= 8 + Z.of_nat k -> aligned_offset (asize lo) (aalign hi) = 8).
  { induction k as [|k IH]; intros x Ix Bx; (destruct (Al x Ix) as [[Zx Mx]|[Zx Ox]]; [|lia]); (destruct (N x Ix) as [E|(p & Ip & E)]; [lia|]); (destruct (Al p Ip) as [[Zp Mp]|[Zp Op]]; [|apply Full; exists p; auto]).
    - assert (s_off x = 8) by lia. assert (pe : s_off p + s_size p <= 8) by (apply (in_eightbyte (s_off p) (s_size p)); try assumption; pose proof (scalar_in g t L p Ip); lia).
      assert (Zx' : 1 <= s_size x) by (cbn [In] in Zx; lia). assert (Zp' : 1 <= s_size p) by (cbn [In] in Zp; lia). pose proof (scalar_in g t L p Ip). pose proof (scalar_in g t L x Ix).
      assert (D1 : data t (s_off p + s_size p - 1)) by (exists p; split; [exact Ip | lia]). specialize (Hlo _ D1 ltac:(lia)).
      assert (D2 : data t (8 + s_size x - 1)) by (exists x; split; [exact Ix | lia]). specialize (Hhi _ D2 ltac:(lia)). apply aligned_eight; [exact B3 | lia].
    - destruct (Z_lt_ge_dec (s_off p) 8) as [P8|P8].
      + assert (pe : s_off p + s_size p <= 8) by (apply (in_eightbyte (s_off p) (s_size p)); try assumption; pose proof (scalar_in g t L p Ip); lia).
        assert (O8 : s_off x = 8). { apply Z.mod_divide in Mx; [|cbn [In] in Zx; lia]. destruct Mx as [q Mx]. cbn [In] in Zx. destruct Zx as [Zx|[Zx|[Zx|[Zx|[]]]]]; rewrite <- Zx in *; lia. }
        apply (IH x Ix). lia.
      + apply (IH p Ip). lia. }
  assert (E : aligned_offset (asize lo) (aalign hi) = 8).
  { destruct (Al s I) as [[Z M]|[Z O]]; [|apply Full; exists s; auto]. destruct (Z_lt_ge_dec (s_off s) 8) as [P8|P8].
    - pose proof (in_eightbyte (s_off s) (s_size s) Z ltac:(pose proof (scalar_in g t L s I); lia) M P8). lia.
    - apply (Gen (Z.to_nat (s_off s - 8)) s I). lia. }
  rewrite E. reflexivity.
Qed.

Lemma in_memory_false g t : in_memory g t 0 = false -> aligned g t 0 = true /\ forall s, In s (scalars t 0) -> s_kind s <> KMem.
Proof.
  unfold in_memory. intro H. apply orb_false_elim in H. destruct H as [A B]. split; [destruct (aligned g t 0); [reflexivity | discriminate A]|].
  intros s I K. assert (X : existsb (fun s => match s_kind s with KMem => true | _ => false end) (scalars t 0) = true); [|congruence]. apply existsb_exists. exists s. rewrite K. auto.
Qed.
Lemma small_classes g nm t : target_ok g -> laid g t -> size t <= 16 -> exists lo hi, classify g nm t 0 = Some (lo, hi) /\ if in_memory g t 0 then lo = Mem /\ hi <> SseUp else (lo, hi) = classes (scalars t 0).
Proof.
  intros G L S. pose proof (classify_small g nm t G L 0 ltac:(lia) ltac:(lia) ltac:(rewrite Z.mod_0_l; [reflexivity | pose proof (align_pos g t G L); lia])) as (lo & hi & E & H). exists lo, hi. split; [exact E|].
  destruct (in_memory g t 0) eqn:M; [|exact H]. assert (Lo : lo = Mem) by (destruct H as [H|[_ H]]; [exact H | lia]). split; [exact Lo|]. subst lo.
  destruct t as [|n| |n| | |u s a ms|b n|v n]; try discriminate M.
  - rewrite classify_agg in E. cbn [size] in S. replace (64 <? s) with false in E by lia.
    assert (Gen : forall ms lo hi, members_loop (classify g nm) g u s 0 ms lo hi = Some (Mem, SseUp) -> False).
    { clear - S. assert (PU : forall lo hi, Some (post_merge s lo hi) = Some (Mem, SseUp) -> False) by (intros lo hi X; injection X as X; pose proof (post_up s lo hi S) as Y; rewrite X in Y; apply Y; reflexivity).
      induction ms as [|[mo m] r IH]; intros lo hi E; cbn [members_loop] in E; [eapply PU; exact E|].
      destruct ((16 <? s) && _); [eapply PU; exact E|]. destruct (negb _); [eapply PU; exact E|]. destruct (classify g nm m (0 + mo)) as [[fl fh]|]; [|discriminate E]. destruct (merge lo fl), (merge hi fh); try discriminate E.
      destruct (ceq c Mem || ceq c0 Mem); [eapply PU; exact E | eapply IH; exact E]. }
    intros ->. eapply Gen. exact E.
  - rewrite classify_array in E. cbv zeta in E. cbn [size] in S. replace (64 <? size b * Z.of_nat n) with false in E by lia. intros ->.
    destruct (negb (0 mod align g b =? 0)); [cbn [current Z.ltb Z.compare] in E; unfold post_merge in E; replace (16 <? size b * Z.of_nat n) with false in E by lia; discriminate E|]. destruct ((16 <? size b * Z.of_nat n) && _); [discriminate E|].
    unfold checked in E. destruct (elements_loop _ _ _ _ _ _ _) as [[l h]|]; [|discriminate E]. destruct (ceq h SseUp && negb (ceq l Sse)) eqn:C; [discriminate E|]. injection E as -> ->. discriminate C.
  - cbn [classify] in E. unfold classify_vector in E. cbv zeta in E. intros ->. destruct ((pow2_up (vsize1 v * n) =? 1) || (pow2_up (vsize1 v * n) =? 2) || (pow2_up (vsize1 v * n) =? 4)).
    { cbn [current Z.ltb Z.compare] in E. destruct (negb _); discriminate E. }
    destruct (pow2_up (vsize1 v * n) =? 8); [destruct v as [| [| [[[]|[]|]|[[]|[|[]|]|]|]|]|]; cbn in E; discriminate E|].
    destruct ((pow2_up (vsize1 v * n) =? 16) || _); [destruct (int128_vec_in_mem g && _ && _); discriminate E | discriminate E].
Qed.

Lemma sse_at_uses t off a : sse_at t off = Some a -> uses Integer a = 0 /\ uses Sse a = 1 /\ (forall n, a <> AWide n) /\ forall n, a <> AOdd n.
Proof.
  unfold sse_at. cbv zeta. intro E.
  assert (Fin : forall x, Some x = Some a -> match x with AFlt _ | AFloats | AHalfs _ => True | _ => False end -> uses Integer a = 0 /\ uses Sse a = 1 /\ (forall n, a <> AWide n) /\ forall n, a <> AOdd n).
  { intros x [= ->] X. destruct a; try destruct X; cbn; repeat split; congruence. }
  repeat match goal with
  | H : match ?x with _ => _ end = Some a |- _ => destruct x
  | H : None = Some a |- _ => discriminate H
  | H : Some _ = Some a |- _ => exact (Fin _ H I)
  end.
Qed.
Lemma argument_demand g nm t r i s : target_ok g -> laid g t -> size t <= 16 \/ no_wide t 0 \/ avx g < size t -> argument g nm t = Some (r, i, s) ->
  match demand g t with None => r = Memory /\ i = 0 /\ s = 0 | Some (i', s') => i = i' /\ s = s' /\ in_registers r = true /\ used Integer r = i /\ used Sse r = s end.
Proof.
  intros G L C A. unfold demand. destruct (Z_le_gt_dec (size t) 16) as [S|S].
  - replace (16 <? size t) with false by lia. cbn [orb]. destruct (small_classes g nm t G L S) as (lo & hi & E & H). unfold argument in A. rewrite E in A. destruct (in_memory g t 0) eqn:M.
    + destruct H as [-> H]. cbn [ceq rank Z.eqb andb negb Pos.eqb] in A. rewrite andb_false_r in A. replace (ceq hi SseUp) with false in A by (destruct hi; try reflexivity; congruence). cbn [andb] in A. injection A as <- <- <-. auto.
    + destruct (classes (scalars t 0)) as [lo' hi'] eqn:Cl. injection H as -> ->. cbv zeta.
      assert (Ig : forall off a, 0 <= off < size t -> int_at t off t off = Some a -> uses Integer a = 1 /\ uses Sse a = 0 /\ forall n, a <> AWide n).
      { intros off a O Ea. pose proof (int_at_good g t off L O t L off ltac:(lia)) as X. destruct (int_part t off _ X) as (a' & E' & _ & _ & U1 & U2 & _ & U4). rewrite Ea in E'. injection E' as ->. auto. }
      assert (Hi1 : hi' = Integer -> 8 < size t).
      { intros ->. assert (E1 : eightbyte 1 (scalars t 0) = Integer) by (unfold classes in Cl; injection Cl as _ Cl; destruct (eightbyte 1 (scalars t 0)), (eightbyte 0 (scalars t 0)); try discriminate Cl; reflexivity).
        unfold eightbyte in E1. destruct (existsb (has_int 1) (scalars t 0)) eqn:X; [|destruct (existsb (has_sse 1) (scalars t 0)); [discriminate E1|]; destruct (existsb (has_up 1) (scalars t 0)); discriminate E1].
        apply existsb_exists in X. destruct X as (x & Ix & Hx). unfold has_int in Hx. destruct (s_kind x); try discriminate Hx. apply touches_range in Hx. pose proof (scalar_in g t L x Ix). lia. }
      pose proof (size_pos g t L) as Pos. clear E.
      destruct (ceq hi' Mem && negb (ceq lo' Mem)) eqn:X1; [discriminate A|]. destruct (ceq hi' SseUp && negb (ceq lo' Sse)) eqn:X2; [discriminate A|].
      assert (NM : lo' <> Mem) by (unfold classes in Cl; injection Cl as <- _; apply eightbyte_not_mem).
      destruct lo'; try congruence; try discriminate A.
      * destruct (ceq hi' No) eqn:X3; [|discriminate A]. injection A as <- <- <-. destruct hi'; try discriminate X3. cbn. auto.
      * destruct (int_at t 0 t 0) as [low|] eqn:El; [|discriminate A]. destruct (Ig 0 low ltac:(lia) El) as (U1 & U2 & U3). destruct hi'; try discriminate A; try discriminate X2.
        -- assert (R : Some (One low, 1, 0) = Some (r, i, s)) by (destruct low; try exact A; destruct (n =? size t); [exact A | discriminate A]). injection R as <- <- <-. cbn. rewrite U1, U2. auto.
        -- destruct (int_at t 8 t 8) as [high|] eqn:Eh; [|discriminate A]. destruct (Ig 8 high ltac:(split; [lia | auto]) Eh) as (V1 & V2 & V3). unfold pair in A. destruct (aligned_offset (asize low) (aalign high) =? 8); [|discriminate A].
           injection A as <- <- <-. cbn. rewrite U1, U2, V1, V2. auto.
        -- destruct (sse_at t 8) as [high|] eqn:Eh; [|discriminate A]. destruct (sse_at_uses t 8 high Eh) as (V1 & V2 & V3 & _). unfold pair in A. destruct (aligned_offset (asize low) (aalign high) =? 8); [|discriminate A].
           injection A as <- <- <-. cbn. rewrite U1, U2, V1, V2. auto.
      * destruct (sse_at t 0) as [low|] eqn:El; [|discriminate A]. destruct (sse_at_uses t 0 low El) as (U1 & U2 & U3 & U4). destruct hi'; try discriminate A.
        -- assert (R : Some (One low, 0, 1) = Some (r, i, s)) by (destruct low; try exact A; destruct (U4 n eq_refl)). injection R as <- <- <-. cbn. rewrite U1, U2. auto.
        -- destruct (int_at t 8 t 8) as [high|] eqn:Eh; [|discriminate A]. destruct (Ig 8 high ltac:(split; [lia | auto]) Eh) as (V1 & V2 & V3). unfold pair in A. destruct (aligned_offset (asize low) (aalign high) =? 8); [|discriminate A].
           injection A as <- <- <-. cbn. rewrite U1, U2, V1, V2. auto.
        -- destruct (sse_at t 8) as [high|] eqn:Eh; [|discriminate A]. destruct (sse_at_uses t 8 high Eh) as (V1 & V2 & V3 & _). unfold pair in A. destruct (aligned_offset (asize low) (aalign high) =? 8); [|discriminate A].
           injection A as <- <- <-. cbn. rewrite U1, U2, V1, V2. auto.
        -- destruct ((size t =? 16) || (size t =? 32) || (size t =? 64)); [|discriminate A]. injection A as <- <- <-. cbn. auto.
  - replace (16 <? size t) with true by lia. cbn [orb]. unfold argument in A. destruct C as [C|[C|C]]; [lia| |].
    + destruct (classify_big g nm t L 0 C) as (lo & hi & E & H1 & H2 & H3). rewrite E in A. specialize (H3 ltac:(lia)).
      destruct (ceq hi Mem && negb (ceq lo Mem)) eqn:X1; [discriminate A|]. replace (ceq hi SseUp) with false in A by (destruct hi; try reflexivity; congruence). cbn [andb] in A.
      assert (lo = Mem) by (destruct H3 as [H3|[_ H3]]; [exact H3 | lia]). subst lo. injection A as <- <- <-. auto.
    + rewrite (classify_beyond g nm t G L C) in A. cbn in A. injection A as <- <- <-. auto.
Qed.

(** An argument arrives whole. *)
Lemma argument_good g nm t : target_ok g -> laid g t -> size t <= 16 -> no_spare t -> plain t \/ integral t -> exists r i s, argument g nm t = Some (r, i, s) /\ arrives t r.
Proof.
  intros G L S N PI. destruct (small_classes g nm t G L S) as (lo & hi & E & H). unfold argument. rewrite E. destruct (in_memory g t 0) eqn:M.
  { destruct H as [-> H]. exists Memory, 0, 0. cbn [ceq rank Z.eqb andb negb Pos.eqb]. rewrite andb_false_r. replace (ceq hi SseUp) with false by (destruct hi; try reflexivity; congruence). split; reflexivity. }
  destruct (in_memory_false g t M) as [Al NM]. pose proof (size_pos g t L) as Pos. cbv zeta.
  assert (Wide : (exists x, In x (scalars t 0) /\ s_kind x = KWide) -> exists x, scalars t 0 = [x] /\ s_kind x = KWide /\ s_size x = 16).
  { intros (x & I & K). exists x. pose proof (scalar_wide g t L x I K) as Z. split; [|auto]. destruct PI as [P|Int]; [apply (alone g); assumption | rewrite (Int x I) in K; discriminate K]. }
  destruct (existsb (fun x => match s_kind x with KWide => true | _ => false end) (scalars t 0)) eqn:EW.
  { apply existsb_exists in EW. destruct EW as (x & I & K). assert (Kx : s_kind x = KWide) by (destruct (s_kind x); try discriminate K; reflexivity). destruct (Wide (ex_intro _ x (conj I Kx))) as (y & Sy & Ky & Zy).
    assert (lo = Sse /\ hi = SseUp) as [-> ->]. { rewrite Sy in H. unfold classes, eightbyte in H. cbn [existsb] in H. unfold has_int, has_sse, has_up in H. rewrite Ky in H. cbn in H. injection H as -> ->. auto. }
    assert (S' : size t = 16). { assert (Iy : In y (scalars t 0)) by (rewrite Sy; left; reflexivity). pose proof (scalar_in g t L y Iy). lia. }
    assert (Iy : In y (scalars t 0)) by (rewrite Sy; left; reflexivity).
    assert (P : plain t) by (destruct PI as [P|Int]; [exact P | rewrite (Int y Iy) in Ky; discriminate Ky]).
    destruct (fp_safe g t L P 0 ltac:(lia) ltac:(lia)) as (fx & Ef & Hf). cbn [ceq rank Z.eqb Pos.eqb andb negb].
    assert (Low : exists a, sse_at t 0 = Some a).
    { unfold sse_at. rewrite Ef. cbv zeta. destruct fx as [f|]; [|eexists; reflexivity]. destruct (Hf f eq_refl) as (z & Iz & Zz & _). rewrite Sy in Iz. destruct Iz as [<-|[]]. rewrite Zy in Zz. subst f. cbn [Z.eqb Pos.eqb]. rewrite S'. cbn. eexists; reflexivity. }
    destruct Low as (a & ->). rewrite S'. cbn [Z.eqb Pos.eqb orb]. exists (One (AWide 16)), 0, 1. split; [reflexivity|]. cbn. symmetry. exact S'. }
  assert (W : forall x, In x (scalars t 0) -> s_kind x <> KWide).
  { intros x I K. assert (X : existsb (fun x => match s_kind x with KWide => true | _ => false end) (scalars t 0) = true); [|congruence]. apply existsb_exists. exists x. rewrite K. auto. }
  assert (E0 : lo = eightbyte 0 (scalars t 0)) by (unfold classes in H; injection H as -> _; reflexivity).
  assert (NU : forall e, eightbyte e (scalars t 0) <> SseUp).
  { intros e. unfold eightbyte. destruct (existsb (has_int e) (scalars t 0)); [discriminate|]. destruct (existsb (has_sse e) (scalars t 0)); [discriminate|]. destruct (existsb (has_up e) (scalars t 0)) eqn:X; [|discriminate].
    apply existsb_exists in X. destruct X as (x & I & K). exfalso. apply (W x I). unfold has_up in K. destruct (s_kind x); try discriminate K; reflexivity. }
  assert (E1 : hi = eightbyte 1 (scalars t 0)) by (unfold classes in H; injection H as _ ->; pose proof (NU 1); destruct (eightbyte 1 (scalars t 0)); try reflexivity; congruence).
  assert (Part : forall e c, c = eightbyte e (scalars t 0) -> e = 0 \/ e = 1 -> c = Integer \/ c = Sse -> exists a, (if ceq c Integer then int_at t (8 * e) t (8 * e) else sse_at t (8 * e)) = Some a /\ holds a t (8 * e) /\ part_ok a /\ (forall n, a = AOdd n -> n = size t - 8 * e) /\ forall n, a <> AWide n).
  { intros e c Ec He [->| ->]; cbn [ceq rank Z.eqb Pos.eqb].
    - assert (O : 0 <= 8 * e < size t). { destruct (eightbyte_some e (scalars t 0) (or_introl (eq_sym Ec)) W) as (x & I & T). apply touches_range in T. pose proof (scalar_in g t L x I). lia. }
      destruct (int_part t (8 * e) _ (int_at_good g t (8 * e) L O t L (8 * e) ltac:(lia))) as (a & Ea & Ha & Pa & _ & _ & Oa & Wa). exists a. auto.
    - assert (O : 8 * e < size t). { destruct (eightbyte_some e (scalars t 0) (or_intror (eq_sym Ec)) W) as (x & I & T). apply touches_range in T. pose proof (scalar_in g t L x I). lia. }
      assert (P : plain t). { destruct PI as [P|Int]; [exact P|]. destruct (eightbyte_some e (scalars t 0) (or_intror (eq_sym Ec)) W) as (x & I & T). exfalso. apply (eightbyte_sse e _ x (eq_sym Ec) I T). apply Int, I. }
      assert (K : forall s, In s (scalars t 0) -> s_off s < 8 * e + 8 -> 8 * e < s_off s + s_size s -> s_kind s = KSse).
      { intros x I X Y. pose proof (eightbyte_sse e _ x (eq_sym Ec) I ltac:(apply touches_range; lia)). pose proof (W x I). pose proof (NM x I). destruct (s_kind x); congruence. }
      destruct (sse_good g t (8 * e) G L S Al P N ltac:(lia) O W K) as (a & Ea & Ha & Ia). destruct (sse_part t (8 * e) a Ia) as (Pa & _ & _ & Oa & Wa). exists a. auto. }
  assert (NoMem : forall c, c = lo \/ c = hi -> c <> Mem /\ c <> SseUp).
  { intros c [->| ->]; split; try (rewrite E0; apply eightbyte_not_mem); try (rewrite E1; apply eightbyte_not_mem); [rewrite E0 | rewrite E1]; apply NU. }
  assert (Lo : lo = Integer \/ lo = Sse).
  { destruct (scalar_first g t L) as (x & I & O). pose proof (scalar_in g t L x I) as B. destruct (NoMem lo (or_introl eq_refl)) as [X Y]. destruct lo; try congruence; auto. exfalso.
    pose proof (eightbyte_no 0 _ x (eq_sym E0) I (NM x I) (W x I)) as T. assert (T' : touches 0 x = true) by (apply touches_range; lia). congruence. }
  destruct (Part 0 lo E0 (or_introl eq_refl) Lo) as (a & Ea & Ha & Pa & Oa & Wa). change (8 * 0) with 0 in *. rewrite Z.sub_0_r in Oa.
  destruct (NoMem hi (or_intror eq_refl)) as [Hm Hu]. replace (ceq hi Mem) with false by (destruct hi; try reflexivity; congruence). replace (ceq hi SseUp) with false by (destruct hi; try reflexivity; congruence). cbn [andb].
  assert (Low : match lo with Integer => int_at t 0 t 0 | Sse => sse_at t 0 | _ => None end = Some a) by (destruct Lo as [->| ->]; exact Ea).
  assert (Form : forall (X : Type) (x y : X), match lo with No => x | Mem => x | SseUp => x | _ => y end = y) by (destruct Lo as [->| ->]; reflexivity).
  assert (Sel : forall (i j : Z), exists i' s', (if ceq lo Integer then 1 else 0) = i' /\ (if ceq lo Sse then 1 else 0) = s') by (intros; eexists; eexists; split; reflexivity).
  destruct (Z.eq_dec (rank hi) 0) as [R0|R0].
  - assert (Hn : hi = No) by (destruct hi; try discriminate R0; reflexivity). pose proof (eq_trans (eq_sym E1) Hn) as H0. rewrite Hn. exists (One a), (if ceq lo Integer then 1 else 0), (if ceq lo Sse then 1 else 0). split.
    + rewrite Low. destruct Lo as [->| ->]; cbn [ceq rank Z.eqb Pos.eqb]; destruct a; try reflexivity; rewrite (Oa n eq_refl), Z.eqb_refl; reflexivity.
    + assert (Bound : forall b, data t b -> b < 8).
      { intros b (x & I & B). pose proof (eightbyte_no 1 _ x H0 I (NM x I) (W x I)) as T. destruct (Z_lt_ge_dec b 8) as [B8|B8]; [exact B8|]. assert (T' : touches 1 x = true); [|congruence].
        apply touches_range. pose proof (scalar_in g t L x I). lia. }
      destruct a; try (split; [exact Ha | exact Bound]). destruct (Wa n eq_refl).
  - assert (Hi : hi = Integer \/ hi = Sse) by (destruct hi; try congruence; auto; exfalso; apply R0; reflexivity).
    destruct (Part 1 hi E1 (or_intror eq_refl) Hi) as (b & Eb & Hb & Pb & _ & Wb). change (8 * 1) with 8 in *.
    assert (T1 : exists x, In x (scalars t 0) /\ touches 1 x = true) by (apply eightbyte_some; [rewrite <- E1; exact Hi | exact W]).
    pose proof (pair_good g t a b G L S Al N Pa Pb Ha Hb T1) as Pr. rewrite Low.
    assert (Fin : arrives t (Two a b)) by (split; [exact Ha|]; split; [exact Hb | exact S]).
    destruct Lo as [->| ->], Hi as [->| ->]; cbn [ceq rank Z.eqb Pos.eqb] in *; rewrite Eb, Pr; eexists; eexists; eexists; (split; [reflexivity | exact Fin]).
Qed.

Lemma argument_large g nm t : target_ok g -> laid g t -> 16 < size t -> no_wide t 0 \/ avx g < size t -> argument g nm t = Some (Memory, 0, 0).
Proof.
  intros G L S C. unfold argument. destruct C as [C|C].
  - destruct (classify_big g nm t L 0 C) as (lo & hi & E & H1 & H2 & H3). rewrite E. assert (lo = Mem) by (destruct (H3 S) as [X|[_ X]]; [exact X | lia]). subst lo.
    cbn [ceq rank Z.eqb Pos.eqb negb]. rewrite andb_false_r. replace (ceq hi SseUp) with false by (destruct hi; try reflexivity; congruence). reflexivity.
  - rewrite (classify_beyond g nm t G L C). reflexivity.
Qed.
Lemma parameters_assign g nm ts : target_ok g -> Forall (fun t => laid g t /\ (size t <= 16 \/ no_wide t 0 \/ avx g < size t)) ts -> forall ints sses l f, 0 <= ints -> 0 <= sses -> parameters g nm ts (ints, sses) = Some (l, f) ->
  (forall rest, assign (map (demand g) ts ++ rest) ints sses = map in_registers l ++ assign rest (fst f) (snd f)) /\ total Integer l = ints - fst f /\ total Sse l = sses - snd f /\ 0 <= fst f /\ 0 <= snd f /\
  Forall2 (fun t a => a = Memory \/ exists i s, argument g nm t = Some (a, i, s)) ts l.
Proof.
  intros G F. induction F as [|t r [L C] F IH]; intros ints sses l f I S E; cbn [parameters] in E.
  - injection E as <- <-. cbn. (split; [reflexivity|]); repeat split; try lia. constructor.
  - unfold parameter in E. destruct (argument g nm t) as [[[a i] s]|] eqn:A; [|discriminate E]. pose proof (argument_demand g nm t a i s G L C A) as D. cbn [fst snd] in E. cbn [map assign app].
    destruct (demand g t) as [[i' s']|] eqn:Dm.
    + destruct D as (<- & <- & D1 & D2 & D3). destruct (sses <? s) eqn:Cs; [|destruct (ints <? i) eqn:Ci].
      * destruct (parameters g nm r (ints, sses)) as [[l' f']|] eqn:E'; [|discriminate E]. injection E as <- <-. destruct (IH ints sses l' f' I S E') as (X1 & X2 & X3 & X4 & X5 & X6). replace (s <=? sses) with false by lia. rewrite andb_false_r. cbn [map total fold_right in_registers used]. fold (total Integer l') (total Sse l'). 
        (split; [intro rest; rewrite X1; reflexivity|]); repeat split; try lia. constructor; auto.
      * destruct (parameters g nm r (ints, sses)) as [[l' f']|] eqn:E'; [|discriminate E]. injection E as <- <-. destruct (IH ints sses l' f' I S E') as (X1 & X2 & X3 & X4 & X5 & X6). replace (i <=? ints) with false by lia. cbn [andb map total fold_right in_registers used]. fold (total Integer l') (total Sse l'). 
        (split; [intro rest; rewrite X1; reflexivity|]); repeat split; try lia. constructor; auto.
      * assert (i0 : 0 <= i /\ 0 <= s) by (unfold demand in Dm; destruct ((16 <? size t) || in_memory g t 0); [discriminate Dm|]; destruct (classes (scalars t 0)) as [lo hi]; injection Dm as <- <-; destruct (ceq lo Integer), (ceq hi Integer), (ceq lo Sse), (ceq hi Sse); lia).
        destruct (parameters g nm r (ints - i, sses - s)) as [[l' f']|] eqn:E'; [|discriminate E]. injection E as <- <-. destruct (IH (ints - i) (sses - s) l' f' ltac:(lia) ltac:(lia) E') as (X1 & X2 & X3 & X4 & X5 & X6). replace (i <=? ints) with true by lia. replace (s <=? sses) with true by lia. cbn [andb map total fold_right]. fold (total Integer l') (total Sse l'). 
        (split; [intro rest; rewrite X1, D1; reflexivity|]); repeat split; try lia. constructor; [right; exists i, s; exact A | exact X6].
    + destruct D as (-> & -> & ->). replace (sses <? 0) with false in E by lia. replace (ints <? 0) with false in E by lia. rewrite !Z.sub_0_r in E.
      destruct (parameters g nm r (ints, sses)) as [[l' f']|] eqn:E'; [|discriminate E]. injection E as <- <-. destruct (IH ints sses l' f' I S E') as (X1 & X2 & X3 & X4 & X5 & X6). cbn [map total fold_right in_registers used]. fold (total Integer l') (total Sse l'). 
      (split; [intro rest; rewrite X1; reflexivity|]); repeat split; try lia. constructor; auto.
Qed.
