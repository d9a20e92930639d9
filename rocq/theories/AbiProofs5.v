(** Arguments on x86-64: floats in registers. *)
From Coq Require Import ZArith List Bool Lia ZifyBool.
From Verif Require Import AbiModel AbiSpec AbiProofs AbiProofs2 AbiProofs3 AbiProofs4.
Import ListNotations.
Open Scope Z_scope.

Section FpAt.
Variable off : Z.
Fixpoint fp_ms (ms : list (Z * ty)) (last : option (option Z)) : option (option Z) :=
  match ms with [] => last | (mo, m) :: r => if off <? mo then last else fp_ms r (fp_at m (off - mo)) end.
End FpAt.
Lemma fp_agg u s a ms off : fp_at (TAgg u s a ms) off = if s <=? off then None else fp_ms off ms None. Proof. reflexivity. Qed.
Section Plain.
Variable s : Z.
Fixpoint plain_ms (ms : list (Z * ty)) : Prop :=
  match ms with
  | [] => True
  | (mo, m) :: r => plain m /\ (match m with TAgg _ _ _ _ => mo + size m = match r with (next, _) :: _ => next | [] => s end | _ => True end) /\ plain_ms r
  end.
End Plain.
Lemma plain_agg u s a ms : plain (TAgg u s a ms) <-> u = false /\ plain_ms s ms. Proof. reflexivity. Qed.
Lemma plain_in s ms mo m : plain_ms s ms -> In (mo, m) ms -> plain m.
Proof. induction ms as [|[o x] r IH]; intros P I; [destruct I|]. cbn [plain_ms] in P. destruct I as [I|I]; [injection I as -> ->; tauto | apply IH; tauto]. Qed.

Definition is_agg (t : ty) : bool := match t with TAgg _ _ _ _ => true | _ => false end.
Definition fp_good (t : ty) (r : option (option Z)) : Prop :=
  exists x, r = Some x /\ forall n, x = Some n -> exists s, In s (scalars t 0) /\ s_size s = n /\ (s_kind s = KSse /\ In n [2; 4; 8] \/ s_kind s = KWide).
Lemma fp_good_at t m mo r : (forall s, In s (scalars m mo) -> In s (scalars t 0)) -> fp_good m r -> fp_good t r.
Proof.
  intros Sub (x & E & H). exists x. split; [exact E|]. intros n N. destruct (H n N) as (s & I & S & K). exists (shift mo s). split; [apply Sub, scalars_at; exists s; auto|]. split; [exact S | exact K].
Qed.
Lemma fp_safe g t : laid g t -> plain t -> forall off, 0 <= off -> (is_agg t = true -> off < size t) -> fp_good t (fp_at t off).
Proof.
  induction t as [|n| |n| | |u s a ms IH|b n IH|v n] using ty_induction; intros L P off O A; try (exists None; split; [reflexivity | discriminate]).
  - cbn [fp_at]. destruct (off =? 0); [|exists None; split; [reflexivity | discriminate]]. exists (Some n). split; [reflexivity|]. intros k [= <-]. exists (Scalar 0 n KSse). cbn. cbn in L. tauto.
  - cbn [fp_at]. destruct (off =? 0); [|exists None; split; [reflexivity | discriminate]]. exists (Some 16). split; [reflexivity|]. intros k [= <-]. exists (Scalar 0 16 KWide). cbn. tauto.
  - apply (proj1 (plain_agg _ _ _ _)) in P. destruct P as [-> P]. apply laid_agg in L. destruct L as (_ & _ & NE & Z0 & L). rewrite fp_agg. specialize (A eq_refl). cbn [size] in A. replace (s <=? off) with false by lia.
    assert (Gen : forall ms' mo m last from, Forall (fun m => laid g (snd m) -> plain (snd m) -> forall off, 0 <= off -> (is_agg (snd m) = true -> off < size (snd m)) -> fp_good (snd m) (fp_at (snd m) off)) ((mo, m) :: ms') ->
      0 <= from -> laid_ms g false s from ((mo, m) :: ms') -> plain_ms s ((mo, m) :: ms') -> (forall x, In x ((mo, m) :: ms') -> In x ms) -> mo <= off -> fp_good (TAgg false s a ms) (fp_ms off ((mo, m) :: ms') last)).
    { clear IH NE Z0 L P. induction ms' as [|[mo2 m2] r IHr]; intros mo m last from F Fr L P Sub M; cbn [fp_ms]; replace (off <? mo) with false by lia; cbn [laid_ms] in L; destruct L as (L1 & L2 & L3 & L4 & L5); cbn [plain_ms] in P; destruct P as (P1 & P2 & P3).
      - apply (fp_good_at _ m mo); [intros x I; rewrite scalars_agg; apply in_ms; exists mo, m; split; [apply Sub; left; reflexivity | exact I]|].
        apply (Forall_inv F); cbn [snd]; [exact L4 | exact P1 | lia|]. intro Ag. destruct m; try discriminate Ag. lia.
      - destruct (off <? mo2) eqn:C.
        + apply (fp_good_at _ m mo); [intros x I; rewrite scalars_agg; apply in_ms; exists mo, m; split; [apply Sub; left; reflexivity | exact I]|].
          apply (Forall_inv F); cbn [snd]; [exact L4 | exact P1 | lia|]. intro Ag. destruct m; try discriminate Ag. lia.
        + pose proof (size_pos g m L4). specialize (IHr mo2 m2 None (mo + size m) (Forall_inv_tail F) ltac:(lia) L5 P3 ltac:(intros x I; apply Sub; right; exact I) ltac:(lia)).
          cbn [fp_ms] in IHr. rewrite C in IHr. exact IHr. }
    destruct ms as [|[mo m] r]; [congruence|]. apply (Gen r mo m None 0); try assumption; try lia. auto.
  - cbn [laid] in L. destruct L as [Ln L]. cbn [plain] in P. cbn [fp_at]. pose proof (size_pos g b L) as Pos. pose proof (Z.mod_pos_bound off (size b) Pos) as MB. rewrite <- Z.mod_eq by lia.
    apply (fp_good_at _ b 0); [|apply (IH L P); lia]. intros x I. rewrite scalars_array. apply in_el. exists 0. split; [lia|]. replace (0 + size b * 0) with 0 by ring. exact I.
Qed.
Lemma fp_skip off g s from ms last : laid_ms g false s from ms -> off < from -> fp_ms off ms last = last.
Proof. destruct ms as [|[mo m] r]; intros L F; [reflexivity|]. cbn [laid_ms] in L. cbn [fp_ms]. replace (off <? mo) with true by lia. reflexivity. Qed.
Lemma fp_pick g off s ms mo m : forall from last, 0 <= from -> laid_ms g false s from ms -> In (mo, m) ms -> mo <= off < mo + size m -> fp_ms off ms last = fp_at m (off - mo).
Proof.
  induction ms as [|[o x] r IH]; intros from last F L I B; [destruct I|]. cbn [laid_ms] in L. destruct L as (L1 & L2 & L3 & L4 & L5). pose proof (size_pos g x L4). cbn [fp_ms]. destruct I as [I|I].
  - injection I as -> ->. replace (off <? mo) with false by lia. apply (fp_skip off g s (mo + size m)); [exact L5 | lia].
  - destruct (in_laid_ms g false s (o + size x) r mo m ltac:(lia) L5 I) as (X & _). replace (off <? o) with false by lia. apply (IH (o + size x)); try assumption. lia.
Qed.
Lemma fp_exact g t : laid g t -> plain t -> forall s, In s (scalars t 0) -> s_kind s = KSse -> fp_at t (s_off s) = Some (Some (s_size s)) \/ s_size s = 8 /\ fp_at t (s_off s) = Some None.
Proof.
  induction t as [|n| |n| | |u sz a ms IH|b n IH|v n] using ty_induction; intros L P s I K.
  - destruct I.
  - destruct I as [<-|[]]. discriminate K.
  - destruct I as [<-|[]]. discriminate K.
  - destruct I as [<-|[]]. left. reflexivity.
  - destruct I as [<-|[]]. discriminate K.
  - destruct I as [<-|[]]. discriminate K.
  - apply (proj1 (plain_agg _ _ _ _)) in P. destruct P as [-> P]. apply laid_agg in L. destruct L as (_ & _ & _ & _ & L). rewrite scalars_agg, in_ms in I. destruct I as (mo & m & I & J). change (0 + mo) with mo in J. apply scalars_at in J. destruct J as (x & J & ->).
    destruct (in_laid_ms g false sz 0 ms mo m ltac:(lia) L I) as (A & B & C). pose proof (scalar_in g m C x J) as D. rewrite Forall_forall in IH. cbn [shift s_off s_size s_kind] in *.
    rewrite fp_agg. replace (sz <=? s_off x + mo) with false by lia. rewrite (fp_pick g (s_off x + mo) sz ms mo m 0 None ltac:(lia) L I ltac:(lia)). replace (s_off x + mo - mo) with (s_off x) by ring.
    apply (IH (mo, m) I C (plain_in _ _ _ _ P I) x J K).
  - cbn [laid] in L. destruct L as [Ln L]. cbn [plain] in P. rewrite scalars_array, in_el in I. destruct I as (i & I & J). apply scalars_at in J. destruct J as (x & J & ->). pose proof (scalar_in g b L x J) as D. cbn [shift s_off s_size s_kind] in *. cbn [fp_at].
    replace (s_off x + (0 + size b * i) - size b * ((s_off x + (0 + size b * i)) / size b)) with (s_off x); [apply (IH L P x J K)|].
    replace (s_off x + (0 + size b * i)) with (s_off x + i * size b) by ring. rewrite Z.div_add by lia. rewrite (Z.div_small (s_off x)) by lia. ring.
  - destruct I as [<-|[]]. right. cbn [s_size s_off s_kind] in *. split; [|reflexivity]. unfold vector_kind in K. destruct (size (TVec v n) <=? 4); [discriminate K|]. destruct (size (TVec v n) =? 8) eqn:E; [lia|]. destruct (size (TVec v n) =? 16); discriminate K.
Qed.
Lemma scalar_sse g t : laid g t -> forall s, In s (scalars t 0) -> s_kind s = KSse -> In (s_size s) [2; 4; 8].
Proof.
  induction t as [|n| |n| | |u sz a ms IH|b n IH|v n] using ty_induction; intros L s I K.
  - destruct I.
  - destruct I as [<-|[]]. discriminate K.
  - destruct I as [<-|[]]. discriminate K.
  - destruct I as [<-|[]]. exact L.
  - destruct I as [<-|[]]. discriminate K.
  - destruct I as [<-|[]]. discriminate K.
  - apply laid_agg in L. destruct L as (_ & _ & _ & _ & L). rewrite scalars_agg, in_ms in I. destruct I as (mo & m & I & J). apply scalars_at in J. destruct J as (x & J & ->).
    destruct (in_laid_ms g u sz 0 ms mo m ltac:(lia) L I) as (A & B & C). rewrite Forall_forall in IH. apply (IH (mo, m) I C x J K).
  - cbn [laid] in L. destruct L as [Ln L]. rewrite scalars_array, in_el in I. destruct I as (i & I & J). apply scalars_at in J. destruct J as (x & J & ->). apply (IH L x J K).
  - destruct I as [<-|[]]. cbn [s_size s_off s_kind] in *. unfold vector_kind in K. destruct (size (TVec v n) <=? 4); [discriminate K|]. destruct (size (TVec v n) =? 8) eqn:E; [cbn [In]; lia|]. destruct (size (TVec v n) =? 16); discriminate K.
Qed.

Section Sse.
Variables (g : target) (t : ty) (o : Z).
Hypotheses (G : target_ok g) (L : laid g t) (S16 : size t <= 16) (Al : aligned g t 0 = true) (P : plain t) (N : no_spare t) (O : o = 0 \/ o = 8) (Os : o < size t)
  (W : forall s, In s (scalars t 0) -> s_kind s <> KWide) (K : forall s, In s (scalars t 0) -> s_off s < o + 8 -> o < s_off s + s_size s -> s_kind s = KSse).
Lemma within s : In s (scalars t 0) -> s_off s < o + 8 -> o < s_off s + s_size s ->
  let d := s_off s - o in let z := s_size s in z = 8 /\ d = 0 \/ z = 4 /\ (d = 0 \/ d = 4) \/ z = 2 /\ (d = 0 \/ d = 2 \/ d = 4 \/ d = 6).
Proof.
  intros I A B. pose proof (K s I A B) as Ks. pose proof (scalar_sse g t L s I Ks) as Z. pose proof (scalar_in g t L s I) as In0.
  destruct (scalar_aligned g t G L 0 ltac:(lia) ltac:(lia) ltac:(rewrite Z.mod_0_l; [reflexivity | pose proof (align_pos g t G L); lia]) Al s I) as [[_ M]|[M _]]; [|cbn [In] in Z; lia].
  apply Z.mod_divide in M; [|cbn [In] in Z; lia]. destruct M as [q M]. cbv zeta. cbn [In] in Z. destruct Z as [Z|[Z|[Z|[]]]]; rewrite <- Z in *; lia.
Qed.
Lemma fp_at_scalar s : In s (scalars t 0) -> s_off s < o + 8 -> o < s_off s + s_size s -> fp_at t (s_off s) = Some (Some (s_size s)) \/ s_size s = 8 /\ fp_at t (s_off s) = Some None.
Proof. intros I A B. apply (fp_exact g t L P s I). apply K; assumption. Qed.
(** What is at a distance of 6 follows something at 4, or fills the eightbyte. *)
Lemma at_six s : In s (scalars t 0) -> s_off s = o + 6 -> s_size s = 2 -> exists p, In p (scalars t 0) /\ (s_off p = o + 4 \/ s_off p = o /\ s_size p = 8) /\ s_off p < o + 8 /\ o < s_off p + s_size p.
Proof.
  intros I A B. destruct (N s I) as [E|(p & Ip & E)]; [lia|]. exists p. split; [exact Ip|]. pose proof (within p Ip ltac:(lia) ltac:(lia)) as X. cbv zeta in X. lia.
Qed.
Lemma fp_some off : 0 <= off < size t -> exists x, fp_at t off = Some x /\ forall n, x = Some n -> n = 2 \/ n = 4 \/ n = 8.
Proof.
  intro B. destruct (fp_safe g t L P off ltac:(lia) ltac:(lia)) as (x & E & H). exists x. split; [exact E|]. intros n Hn. destruct (H n Hn) as (s & I & _ & [[_ C]|C]); [cbn [In] in C; lia | exfalso; apply (W s I C)].
Qed.
Lemma sse_good : exists a, sse_at t o = Some a /\ holds a t o /\ In a [AFlt 2; AFlt 4; AFlt 8; AFloats; AHalfs 2; AHalfs 4].
Proof.
  assert (E8 : forall a, asize a = 8 -> holds a t o) by (intros a A b D B; lia).
  assert (Small : forall a, (forall s, In s (scalars t 0) -> s_off s < o + 8 -> o < s_off s + s_size s -> s_off s + s_size s - o <= asize a) -> holds a t o).
  { intros a H b (s & I & B) B'. specialize (H s I ltac:(lia) ltac:(lia)). lia. }
  unfold sse_at. cbv zeta. destruct (fp_some o ltac:(lia)) as (x & E & H). rewrite E. destruct x as [f|]; [|exists (AFlt 8); split; [reflexivity|]; split; [apply E8; reflexivity | cbn; tauto]].
  destruct (H f eq_refl) as [->|[->| ->]]; cbn [Z.eqb Pos.eqb]; [| |exists (AFlt 8); split; [reflexivity|]; split; [apply E8; reflexivity | cbn; tauto]].
  - (* two bytes *)
    destruct (2 <? size t - o) eqn:C2.
    2:{ replace (4 <? size t - o) with false by lia. exists (AFlt 2). split; [reflexivity|]. split; [|cbn; tauto]. apply Small. intros s I A B. pose proof (scalar_in g t L s I). cbn [asize]. lia. }
    destruct (fp_some (o + 2) ltac:(lia)) as (x2 & E2 & H2). rewrite E2. destruct x2 as [f2|].
    + destruct (f2 =? 2) eqn:F2; cbn [andb orb].
      * destruct (4 <? size t - o) eqn:C4.
        -- destruct (fp_some (o + 4) ltac:(lia)) as (x4 & E4 & H4). rewrite E4. destruct x4 as [f4|]; [exists (AHalfs 4); split; [reflexivity|]; split; [apply E8; reflexivity | cbn; tauto]|].
           exists (AHalfs 2). split; [reflexivity|]. split; [|cbn; tauto]. apply Small. intros s I A B. pose proof (within s I A B) as X. cbv zeta in X. pose proof (fp_at_scalar s I A B) as Y. cbn [asize].
           assert (C : s_off s = o + 4 \/ s_off s = o /\ s_size s = 8 \/ s_off s = o + 6 /\ s_size s = 2 \/ s_off s + s_size s - o <= 4) by lia.
           destruct C as [C|[[C C']|[[C C']|C]]]; [| | |exact C]; exfalso.
           ++ rewrite C, E4 in Y. destruct Y as [Y|[Y' Y]]; [discriminate Y | lia].
           ++ rewrite C, E, C' in Y. destruct Y as [Y|[_ Y]]; discriminate Y.
           ++ destruct (at_six s I C C') as (p & Ip & [D|[D D']] & D1 & D2); pose proof (fp_at_scalar p Ip D1 D2) as Y'; pose proof (within p Ip D1 D2) as X'; cbv zeta in X'; rewrite D in Y'; [rewrite E4 in Y' | rewrite E, D' in Y']; [destruct Y' as [Y'|[Y'' Y']]; [discriminate Y' | lia] | destruct Y' as [Y'|[_ Y']]; discriminate Y'].
        -- exists (AHalfs 2). split; [reflexivity|]. split; [|cbn; tauto]. apply Small. intros s I A B. pose proof (scalar_in g t L s I). cbn [asize]. lia.
      * exists (AHalfs 4). split; [reflexivity|]. split; [apply E8; reflexivity | cbn; tauto].
    + destruct (4 <? size t - o) eqn:C4.
      * destruct (fp_some (o + 4) ltac:(lia)) as (x4 & E4 & H4). rewrite E4. destruct x4 as [f4|].
        -- destruct (f4 =? 2) eqn:F4; cbn [andb orb]; exists (AHalfs 4); (split; [reflexivity|]; split; [apply E8; reflexivity | cbn; tauto]).
        -- exists (AFlt 2). split; [reflexivity|]. split; [|cbn; tauto]. apply Small. intros s I A B. pose proof (within s I A B) as X. cbv zeta in X. pose proof (fp_at_scalar s I A B) as Y. cbn [asize].
           assert (C : s_off s = o + 4 \/ s_off s = o /\ s_size s = 8 \/ s_off s = o + 6 /\ s_size s = 2 \/ s_off s = o + 2 /\ s_size s = 2 \/ s_off s = o /\ s_size s = 4 \/ s_off s + s_size s - o <= 2) by lia.
           destruct C as [C|[[C C']|[[C C']|[[C C']|[[C C']|C]]]]]; [| | | | |exact C]; exfalso.
           ++ rewrite C, E4 in Y. destruct Y as [Y|[Y' Y]]; [discriminate Y | lia].
           ++ rewrite C, E, C' in Y. destruct Y as [Y|[_ Y]]; discriminate Y.
           ++ destruct (at_six s I C C') as (p & Ip & [D|[D D']] & D1 & D2); pose proof (fp_at_scalar p Ip D1 D2) as Y'; pose proof (within p Ip D1 D2) as X'; cbv zeta in X'; rewrite D in Y'; [rewrite E4 in Y' | rewrite E, D' in Y']; [destruct Y' as [Y'|[Y'' Y']]; [discriminate Y' | lia] | destruct Y' as [Y'|[_ Y']]; discriminate Y'].
           ++ rewrite C, E2, C' in Y. destruct Y as [Y|[Y' Y]]; [discriminate Y | lia].
           ++ rewrite C, E, C' in Y. destruct Y as [Y|[_ Y]]; discriminate Y.
      * exists (AFlt 2). split; [reflexivity|]. split; [|cbn; tauto]. apply Small. intros s I A B. pose proof (scalar_in g t L s I). pose proof (within s I A B) as X. cbv zeta in X. pose proof (fp_at_scalar s I A B) as Y. cbn [asize].
        assert (C : s_off s = o + 2 /\ s_size s = 2 \/ s_off s = o /\ s_size s = 4 \/ s_off s + s_size s - o <= 2) by lia.
        destruct C as [[C C']|[[C C']|C]]; [| |exact C]; exfalso; [rewrite C, E2, C' in Y | rewrite C, E, C' in Y]; destruct Y as [Y|[Y' Y]]; try discriminate Y; lia.
  - (* four bytes *)
    destruct (4 <? size t - o) eqn:C4.
    2:{ exists (AFlt 4). split; [reflexivity|]. split; [|cbn; tauto]. apply Small. intros s I A B. pose proof (scalar_in g t L s I). cbn [asize]. lia. }
    destruct (fp_some (o + 4) ltac:(lia)) as (x4 & E4 & H4). rewrite E4. destruct x4 as [f4|].
    + destruct (H4 f4 eq_refl) as [->|[->| ->]]; cbn [Z.eqb Pos.eqb andb orb]; eexists; (split; [reflexivity|]; split; [apply E8; reflexivity | cbn; tauto]).
    + exists (AFlt 4). split; [reflexivity|]. split; [|cbn; tauto]. apply Small. intros s I A B. pose proof (within s I A B) as X. cbv zeta in X. pose proof (fp_at_scalar s I A B) as Y. cbn [asize].
      assert (C : s_off s = o + 4 \/ s_off s = o /\ s_size s = 8 \/ s_off s = o + 6 /\ s_size s = 2 \/ s_off s + s_size s - o <= 4) by lia.
      destruct C as [C|[[C C']|[[C C']|C]]]; [| | |exact C]; exfalso.
      * rewrite C, E4 in Y. destruct Y as [Y|[Y' Y]]; [discriminate Y | lia].
      * rewrite C, E, C' in Y. destruct Y as [Y|[_ Y]]; discriminate Y.
      * destruct (at_six s I C C') as (p & Ip & [D|[D D']] & D1 & D2); pose proof (fp_at_scalar p Ip D1 D2) as Y'; pose proof (within p Ip D1 D2) as X'; cbv zeta in X'; rewrite D in Y'; [rewrite E4 in Y' | rewrite E, D' in Y']; [destruct Y' as [Y'|[Y'' Y']]; [discriminate Y' | lia] | destruct Y' as [Y'|[_ Y']]; discriminate Y'].
Qed.
End Sse.
