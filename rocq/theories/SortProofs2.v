From Coq Require Import ZArith Bool List Lia ZifyBool Permutation Sorting.Sorted.
From Verif Require Import Word Mach SortModel SortSpec SortProofs.
Import ListNotations.
Open Scope Z_scope.

Section Quick.
Context {A : Type} (cmp : A -> A -> Z) (TP : TotalPreorder cmp).
Notation Srt := (StronglySorted (le cmp)).
Ltac aeq := repeat first [rewrite <- app_assoc | progress cbn [app]]; reflexivity.
Ltac zl := repeat (rewrite ?zlen_app, ?zlen_cons, ?zlen_nil in *).

Lemma snoc_cases (M : list A) : M = [] \/ exists M' x, M = M' ++ [x].
Proof. destruct M as [|a l] using rev_ind; [left; reflexivity|right; eauto]. Qed.

Lemma scan_down_ok p : forall fuel pre hole M X, (length M < fuel)%nat ->
  exists M1 S, M = M1 ++ S /\ Forall (fun e => 0 <= cmp e p) S /\
    (M1 = [] \/ exists M2 x, M1 = M2 ++ [x] /\ cmp x p < 0) /\
    scan_down cmp fuel (pre ++ hole :: M ++ X) p (zlen pre) (zlen pre + zlen M) = Ok (zlen pre + zlen M1).
Proof.
  induction fuel as [|f IH]; intros pre hole M X Hf; [lia|]. cbn [scan_down].
  destruct (snoc_cases M) as [->|(M' & x & ->)].
  - exists [], []. split; [reflexivity|]. split; [constructor|]. split; [left; reflexivity|].
    rewrite zlen_nil, Z.add_0_r, get_app by reflexivity. cbn [bind]. rewrite Z.ltb_irrefl, andb_false_r. reflexivity.
  - pose proof (zlen_nonneg M').
    replace (pre ++ hole :: (M' ++ [x]) ++ X) with ((pre ++ hole :: M') ++ x :: X) by aeq.
    rewrite get_app by (zl; lia). cbn [bind].
    destruct (Z.leb_spec 0 (cmp x p)) as [Hc|Hc]; cbn [andb].
    + replace (zlen pre <? zlen pre + zlen (M' ++ [x])) with true by (zl; lia).
      rewrite app_length in Hf. cbn in Hf.
      destruct (IH pre hole M' (x :: X) ltac:(lia)) as (M1 & S & -> & F & Hm & E).
      exists M1, (S ++ [x]). split; [rewrite app_assoc; reflexivity|]. split; [apply Forall_app; auto|]. split; [exact Hm|].
      rewrite <- E. f_equal; [aeq|zl; lia].
    + exists (M' ++ [x]), []. split; [rewrite app_nil_r; reflexivity|]. split; [constructor|]. split; [right; eauto|]. reflexivity.
Qed.

Lemma scan_up_ok p : forall fuel pre hole M X, (length M < fuel)%nat ->
  exists S M2, M = S ++ M2 /\ Forall (fun e => cmp e p <= 0) S /\
    (M2 = [] \/ exists x M3, M2 = x :: M3 /\ 0 < cmp x p) /\
    scan_up cmp fuel (pre ++ M ++ hole :: X) p (zlen pre) (zlen pre + zlen M) = Ok (zlen pre + zlen S).
Proof.
  induction fuel as [|f IH]; intros pre hole M X Hf; [lia|]. cbn [scan_up].
  destruct M as [|x M].
  - exists [], []. split; [reflexivity|]. split; [constructor|]. split; [left; reflexivity|].
    cbn [app]. rewrite get_app by reflexivity. cbn [bind]. replace (zlen pre <? zlen pre + zlen (@nil A)) with false by (zl; lia). rewrite andb_false_r. f_equal. zl. lia.
  - pose proof (zlen_nonneg M). cbn [app]. rewrite get_app by reflexivity. cbn [bind].
    destruct (Z.leb_spec (cmp x p) 0) as [Hc|Hc]; cbn [andb].
    + replace (zlen pre <? zlen pre + zlen (x :: M)) with true by (zl; lia). cbn in Hf.
      destruct (IH (pre ++ [x]) hole M X ltac:(lia)) as (S & M2 & -> & F & Hm & E).
      exists (x :: S), M2. split; [reflexivity|]. split; [constructor; auto|]. split; [exact Hm|].
      zl. replace (zlen pre + (1 + 0)) with (zlen pre + 1) in E by lia. rewrite <- app_assoc in E. cbn [app] in E.
      replace (zlen pre + (1 + zlen S)) with (zlen pre + 1 + zlen S) by lia.
      replace (zlen pre + (1 + (zlen S + zlen M2))) with (zlen pre + 1 + (zlen S + zlen M2)) by lia. exact E.
    + exists [], (x :: M). split; [reflexivity|]. split; [constructor|]. split; [right; eauto|]. rewrite zlen_nil, Z.add_0_r. reflexivity.
Qed.

Lemma part_loop_ok p inner : forall fuel pre hole M X, (length M < inner)%nat -> (length M < fuel)%nat ->
  exists S1 S2 hole', part_loop cmp inner fuel (pre ++ hole :: M ++ X) p (zlen pre) (zlen pre + zlen M)
       = Ok (pre ++ S1 ++ hole' :: S2 ++ X, zlen pre + zlen S1) /\
    Permutation M (S1 ++ S2) /\ Forall (fun e => cmp e p <= 0) S1 /\ Forall (fun e => 0 <= cmp e p) S2 /\
    (forall M' x, M = M' ++ [x] -> 0 <= cmp x p -> S2 <> []).
Proof.
  induction fuel as [|f IH]; intros pre hole M X Hin Hf; [lia|]. cbn [part_loop].
  pose proof (zlen_nonneg M) as HM.
  destruct (Z.ltb_spec (zlen pre) (zlen pre + zlen M)) as [Hlt|Hge].
  2:{ assert (M = []) by (destruct M; [reflexivity|zl; pose proof (zlen_nonneg M); lia]). subst M.
      exists [], [], hole. cbn [app]. rewrite zlen_nil, Z.add_0_r. repeat split; try constructor.
      intros M' x E. destruct M'; discriminate. }
  destruct (scan_down_ok p inner pre hole M X Hin) as (M1 & S & EM & FS & Hm & E). rewrite E. cbn [bind]. clear E.
  destruct Hm as [->|(M2 & x & -> & Hx)].
  - rewrite zlen_nil, Z.add_0_r, Z.ltb_irrefl. cbn [bind]. cbn [app] in EM. subst S.
    destruct (scan_up_ok p inner pre hole [] (M ++ X) ltac:(cbn; lia)) as (S0 & M0 & E0 & _ & _ & E).
    symmetry in E0. apply app_eq_nil in E0. destruct E0 as [-> ->]. cbn [app] in E. rewrite zlen_nil, Z.add_0_r in E.
    rewrite E. cbn [bind]. rewrite Z.ltb_irrefl. cbn [bind].
    destruct f as [|f]; [assert (length M = 0)%nat by lia; unfold zlen in Hlt; lia|]. cbn [part_loop]. rewrite Z.ltb_irrefl.
    exists [], M, hole. rewrite zlen_nil, Z.add_0_r. cbn [app]. repeat split; try assumption; try constructor; try reflexivity.
    intros M' x E1 _ ->. destruct M'; discriminate.
  - pose proof (zlen_nonneg M2). pose proof (zlen_nonneg S).
    replace (zlen pre <? zlen pre + zlen (M2 ++ [x])) with true by (zl; lia). subst M.
    replace (pre ++ hole :: ((M2 ++ [x]) ++ S) ++ X) with ((pre ++ hole :: M2) ++ x :: S ++ X)
      by aeq.
    rewrite get_app by (zl; lia). cbn [bind].
    replace ((pre ++ hole :: M2) ++ x :: S ++ X) with (pre ++ hole :: M2 ++ x :: S ++ X) by aeq.
    rewrite set_app by reflexivity. cbn [bind].
    rewrite !app_length in Hin, Hf. cbn in Hin, Hf.
    destruct (scan_up_ok p inner (pre ++ [x]) x M2 (S ++ X) ltac:(lia)) as (S1 & M3 & EM2 & FS1 & Hm & E).
    zl. rewrite <- app_assoc in E. cbn [app] in E.
    replace (zlen pre + (zlen M2 + (1 + 0))) with (zlen pre + (1 + 0) + zlen M2) by lia.
    replace (zlen pre + (1 + 0)) with (zlen pre + 1) in * by lia.
    rewrite E. cbn [bind]. clear E. pose proof (zlen_nonneg S1).
    destruct Hm as [->|(y & M4 & -> & Hy)].
    + rewrite app_nil_r in EM2. subst S1. rewrite Z.ltb_irrefl. cbn [bind].
      destruct f as [|f]; [lia|]. cbn [part_loop]. rewrite Z.ltb_irrefl.
      exists (x :: M2), S, x. repeat split.
      * cbn [app]. f_equal. f_equal. zl. lia.
      * rewrite <- app_assoc. apply Permutation_sym. apply Permutation_middle.
      * constructor; [lia|exact FS1].
      * exact FS.
      * intros M' z Ez Hz ->. rewrite app_nil_r in Ez. apply app_inj_tail in Ez. destruct Ez as [_ ->]. lia.
    + subst M2. zl. pose proof (zlen_nonneg M4).
      replace (zlen pre + 1 + zlen S1 <? zlen pre + 1 + (zlen S1 + (1 + zlen M4))) with true by lia.
      replace (pre ++ x :: (S1 ++ y :: M4) ++ x :: S ++ X) with ((pre ++ x :: S1) ++ y :: M4 ++ x :: S ++ X)
        by aeq.
      rewrite get_app by (zl; lia). cbn [bind].
      replace ((pre ++ x :: S1) ++ y :: M4 ++ x :: S ++ X) with ((pre ++ x :: S1 ++ y :: M4) ++ x :: S ++ X)
        by aeq.
      rewrite set_app by (zl; lia). cbn [bind].
      rewrite !app_length in Hin, Hf. cbn in Hin, Hf.
      destruct (IH (pre ++ x :: S1) y M4 (y :: S ++ X) ltac:(lia) ltac:(lia)) as (T1 & T2 & hole' & E & P & F1 & F2 & _).
      exists (x :: S1 ++ T1), (T2 ++ y :: S), hole'.
      replace ((pre ++ x :: S1 ++ y :: M4) ++ y :: S ++ X) with ((pre ++ x :: S1) ++ y :: M4 ++ (y :: S ++ X))
        by aeq.
      replace (zlen pre + 1 + zlen S1) with (zlen (pre ++ x :: S1)) by (zl; lia).
      replace (zlen pre + 1 + (zlen S1 + (1 + zlen M4)) - 1) with (zlen (pre ++ x :: S1) + zlen M4) by (zl; lia).
      split; [|split; [|split; [|split]]].
      * rewrite E. f_equal. f_equal; [aeq|zl; lia].
      * cbn [app]. rewrite <- app_assoc. cbn [app].
        transitivity (x :: (S1 ++ y :: M4) ++ S); [apply Permutation_sym, Permutation_middle|]. apply perm_skip.
        rewrite <- !app_assoc. cbn [app]. apply Permutation_app_head.
        transitivity (y :: (T1 ++ T2) ++ S); [constructor; apply Permutation_app_tail; exact P|].
        rewrite <- app_assoc. rewrite !app_assoc. apply Permutation_middle.
      * constructor; [lia|]. apply Forall_app; auto.
      * apply Forall_app. split; [exact F2|]. constructor; [lia|exact FS].
      * intros _ _ _ _ H5. destruct T2; discriminate.
Qed.

Lemma partition_ok pre p M post fuel : (length M < fuel)%nat ->
  exists S1 S2, partition cmp fuel (pre ++ (p :: M) ++ post) (zlen pre) (zlen pre + zlen M)
     = Ok (pre ++ S1 ++ p :: S2 ++ post, zlen pre + zlen S1) /\
   Permutation M (S1 ++ S2) /\ Forall (fun e => cmp e p <= 0) S1 /\ Forall (fun e => 0 <= cmp e p) S2 /\
   (forall M' x, M = M' ++ [x] -> 0 <= cmp x p -> S2 <> []).
Proof.
  intros Hf. unfold partition. cbn [app]. rewrite get_app by reflexivity. cbn [bind].
  destruct (part_loop_ok p fuel fuel pre p M post Hf Hf) as (S1 & S2 & hole & E & P & F1 & F2 & Fl).
  rewrite E. cbn [bind]. exists S1, S2. split; [|auto].
  replace (pre ++ S1 ++ hole :: S2 ++ post) with ((pre ++ S1) ++ hole :: S2 ++ post) by aeq.
  rewrite set_app by (zl; lia). cbn [bind]. rewrite <- app_assoc. reflexivity.
Qed.

(** ** The work stack *)
Definition V (n : Z) : Z := Z.max 1 (4 * n - 3).

(** Processing the range on top of the stack. *)
Definition Proc (mid : list A) (bound : Z) : Prop :=
  forall pre post stk i, zlen stk = 64 -> 0 <= i -> get stk i = Ok (zlen pre, zlen pre + zlen mid - 1) ->
    zlen mid <= 2 ^ (63 - i) ->
    exists c mid' stk', Z.of_nat c <= bound /\ zlen stk' = 64 /\ (forall j, j < i -> get stk' j = get stk j) /\
      Permutation mid mid' /\ Srt mid' /\
      forall fuel, qsort_loop cmp (c + fuel) (pre ++ mid ++ post) stk i = qsort_loop cmp fuel (pre ++ mid' ++ post) stk' (i - 1).

Lemma proc_small mid : zlen mid <= 1 -> Proc mid 1.
Proof.
  intros H pre post stk i Hs Hi Hg Hp. exists 1%nat, mid, stk. split; [lia|]. split; [exact Hs|]. split; [reflexivity|]. split; [reflexivity|]. split.
  - destruct mid as [|a [|b t]]; [constructor|repeat constructor|]. zl. pose proof (zlen_nonneg t). lia.
  - intros fuel. cbn [Nat.add]. cbn [qsort_loop]. destruct (Z.leb_spec 0 i); [|lia]. rewrite Hg. cbn [bind].
    destruct (Z.ltb_spec (zlen pre) (zlen pre + zlen mid - 1)); [lia|reflexivity].
Qed.

Lemma set_get_other (l l' : list (Z * Z)) i x j : set l i x = Ok l' -> j <> i -> get l' j = get l j.
Proof. intros H Hj. rewrite (get_set _ _ _ j _ H). destruct (Z.eqb_spec j i); [contradiction|reflexivity]. Qed.
Lemma set_get_same (l l' : list (Z * Z)) i x : set l i x = Ok l' -> get l' i = Ok x.
Proof. intros H. rewrite (get_set _ _ _ i _ H), Z.eqb_refl. reflexivity. Qed.

Lemma srt_three S1 p S2 T1 T2 : Forall (fun e => cmp e p <= 0) S1 -> Forall (fun e => 0 <= cmp e p) S2 ->
  Permutation (S1 ++ [p]) T1 -> Permutation S2 T2 -> Srt T1 -> Srt T2 -> Srt (T1 ++ T2).
Proof.
  intros F1 F2 P1 P2 R1 R2. apply srt_app. split; [exact R1|]. split; [exact R2|]. intros a b Ha Hb.
  apply (Permutation_in _ (Permutation_sym P1)) in Ha. apply (Permutation_in _ (Permutation_sym P2)) in Hb.
  rewrite Forall_forall in F1, F2. apply (le_trans cmp TP) with p.
  - apply in_app_or in Ha. destruct Ha as [Ha|[<-|[]]]; [apply F1; exact Ha|unfold le; rewrite (cmp_refl cmp TP); lia].
  - apply (cmp_flip cmp TP). apply F2. exact Hb.
Qed.

(** One split step, given that both halves can be processed. *)
Lemma proc_split pre p M post stk i b1 b2 (Hne : M <> []) : zlen stk = 64 -> 0 <= i ->
  get stk i = Ok (zlen pre, zlen pre + zlen (p :: M) - 1) -> zlen (p :: M) <= 2 ^ (63 - i) ->
  forall S1 S2, 
  partition cmp (S (length (pre ++ (p :: M) ++ post))) (pre ++ (p :: M) ++ post) (zlen pre) (zlen pre + zlen M)
     = Ok (pre ++ S1 ++ p :: S2 ++ post, zlen pre + zlen S1) ->
  Permutation M (S1 ++ S2) -> Forall (fun e => cmp e p <= 0) S1 -> Forall (fun e => 0 <= cmp e p) S2 ->
  Proc (S1 ++ [p]) b1 -> Proc S2 b2 ->
  exists c mid' stk', Z.of_nat c <= 1 + b1 + b2 /\ zlen stk' = 64 /\ (forall j, j < i -> get stk' j = get stk j) /\
      Permutation (p :: M) mid' /\ Srt mid' /\
      forall fuel, qsort_loop cmp (c + fuel) (pre ++ (p :: M) ++ post) stk i = qsort_loop cmp fuel (pre ++ mid' ++ post) stk' (i - 1).
Proof.
  intros Hs Hi Hg Hp S1 S2 EP PM F1 F2 Pr1 Pr2.
  assert (HM : 1 <= zlen M) by (destruct M; [contradiction|zl; pose proof (zlen_nonneg M); lia]).
  assert (Hlen : zlen M = zlen S1 + zlen S2) by (unfold zlen; rewrite (Permutation_length PM), app_length; lia).
  pose proof (zlen_nonneg S1) as HS1. pose proof (zlen_nonneg S2) as HS2.
  assert (Hi62 : i <= 62).
  { destruct (Z_le_gt_dec i 62) as [H|H]; [exact H|exfalso]. zl.
    destruct (Z.eq_dec i 63) as [->|H63]; [change (2 ^ (63 - 63)) with 1 in Hp; lia|].
    rewrite (Z.pow_neg_r 2 (63 - i)) in Hp by lia. lia. }
  assert (Hpow : 2 ^ (63 - i) = 2 * 2 ^ (63 - (i + 1))).
  { replace (63 - i) with (1 + (63 - (i + 1))) by lia. rewrite Z.pow_add_r by lia. reflexivity. }
  destruct (set_ok stk (i + 1) (zlen pre + zlen S1 + 1, zlen pre + zlen M) ltac:(lia)) as [k1 Ek1].
  pose proof (set_zlen _ _ _ _ Ek1) as L1. rewrite Hs in L1.
  destruct (set_ok k1 i (zlen pre, zlen pre + zlen S1) ltac:(lia)) as [k2 Ek2].
  pose proof (set_zlen _ _ _ _ Ek2) as L2. rewrite L1 in L2.
  assert (G1 : get k2 (i + 1) = Ok (zlen pre + zlen S1 + 1, zlen pre + zlen M)).
  { rewrite (set_get_other _ _ _ _ _ Ek2) by lia. apply (set_get_same _ _ _ _ Ek1). }
  assert (G2 : get k2 i = Ok (zlen pre, zlen pre + zlen S1)) by apply (set_get_same _ _ _ _ Ek2).
  assert (Step : forall fuel, qsort_loop cmp (S fuel) (pre ++ (p :: M) ++ post) stk i =
     (stack <- (if zlen S1 <? zlen M - zlen S1 - 1 then s1 <- set k2 (i + 1) (zlen pre, zlen pre + zlen S1) ;; set s1 i (zlen pre + zlen S1 + 1, zlen pre + zlen M) else Ok k2) ;;
      qsort_loop cmp fuel (pre ++ S1 ++ p :: S2 ++ post) stack (i + 1))).
  { intros fuel. cbn [qsort_loop]. destruct (Z.leb_spec 0 i); [|lia]. rewrite Hg. cbn [bind].
    rewrite zlen_cons. replace (zlen pre + (1 + zlen M) - 1) with (zlen pre + zlen M) by lia.
    destruct (Z.ltb_spec (zlen pre) (zlen pre + zlen M)); [|lia]. rewrite EP. cbn [bind]. rewrite Ek1. cbn [bind]. rewrite Ek2. cbn [bind].
    rewrite G1. cbn [bind]. replace (i + 1 - 1) with i by lia. rewrite G2. cbn [bind].
    replace (zlen pre + zlen S1 - zlen pre) with (zlen S1) by lia.
    replace (zlen pre + zlen M - (zlen pre + zlen S1 + 1)) with (zlen M - zlen S1 - 1) by lia. reflexivity. }
  assert (Old : forall j, j < i -> get k2 j = get stk j).
  { intros j Hj. rewrite (set_get_other _ _ _ _ _ Ek2) by lia. apply (set_get_other _ _ _ _ _ Ek1). lia. }
  destruct (Z.ltb_spec (zlen S1) (zlen M - zlen S1 - 1)) as [Hsw|Hsw].
  - destruct (set_ok k2 (i + 1) (zlen pre, zlen pre + zlen S1) ltac:(lia)) as [k3 Ek3].
    pose proof (set_zlen _ _ _ _ Ek3) as L3. rewrite L2 in L3.
    destruct (set_ok k3 i (zlen pre + zlen S1 + 1, zlen pre + zlen M) ltac:(lia)) as [k4 Ek4].
    pose proof (set_zlen _ _ _ _ Ek4) as L4. rewrite L3 in L4.
    assert (G3 : get k4 (i + 1) = Ok (zlen pre, zlen pre + zlen (S1 ++ [p]) - 1)).
    { rewrite (set_get_other _ _ _ _ _ Ek4) by lia. rewrite (set_get_same _ _ _ _ Ek3). f_equal. f_equal. zl. lia. }
    destruct (Pr1 pre (S2 ++ post) k4 (i + 1) L4 ltac:(lia) G3 ltac:(zl; lia)) as (c1 & T1 & k5 & C1 & L5 & O5 & P1 & R1 & Q1).
    assert (LT1 : zlen T1 = zlen S1 + 1) by (unfold zlen; rewrite <- (Permutation_length P1), app_length; cbn; lia).
    assert (G5 : get k5 i = Ok (zlen (pre ++ T1), zlen (pre ++ T1) + zlen S2 - 1)).
    { rewrite (O5 i) by lia. rewrite (set_get_same _ _ _ _ Ek4). f_equal. f_equal; zl; lia. }
    destruct (Pr2 (pre ++ T1) post k5 i L5 Hi G5 ltac:(zl; lia)) as (c2 & T2 & k6 & C2 & L6 & O6 & P2 & R2 & Q2).
    exists (S (c1 + c2)), (T1 ++ T2), k6. split; [lia|]. split; [exact L6|]. split; [|split; [|split]].
    + intros j Hj. rewrite (O6 j Hj), (O5 j) by lia. rewrite (set_get_other _ _ _ _ _ Ek4) by lia.
      rewrite (set_get_other _ _ _ _ _ Ek3) by lia. apply Old. exact Hj.
    + rewrite PM. rewrite <- P1, <- P2. rewrite <- app_assoc. apply Permutation_middle.
    + apply srt_three with S1 p S2; assumption.
    + intros fuel. replace (S (c1 + c2) + fuel)%nat with (S (c1 + (c2 + fuel))) by lia. rewrite Step, Ek3. cbn [bind]. rewrite Ek4. cbn [bind].
      replace (pre ++ S1 ++ p :: S2 ++ post) with (pre ++ (S1 ++ [p]) ++ S2 ++ post) by aeq.
      rewrite Q1. replace (i + 1 - 1) with i by lia.
      replace (pre ++ T1 ++ S2 ++ post) with ((pre ++ T1) ++ S2 ++ post) by aeq.
      rewrite Q2. rewrite <- !app_assoc. reflexivity.
  - assert (G3 : get k2 (i + 1) = Ok (zlen (pre ++ S1 ++ [p]), zlen (pre ++ S1 ++ [p]) + zlen S2 - 1)).
    { rewrite G1. f_equal. f_equal; zl; lia. }
    destruct (Pr2 (pre ++ S1 ++ [p]) post k2 (i + 1) L2 ltac:(lia) G3 ltac:(zl; lia)) as (c1 & T2 & k5 & C1 & L5 & O5 & P2 & R2 & Q2).
    assert (G5 : get k5 i = Ok (zlen pre, zlen pre + zlen (S1 ++ [p]) - 1)).
    { rewrite (O5 i) by lia. rewrite G2. f_equal. f_equal; zl; lia. }
    destruct (Pr1 pre (T2 ++ post) k5 i L5 Hi G5 ltac:(zl; lia)) as (c2 & T1 & k6 & C2 & L6 & O6 & P1 & R1 & Q1).
    exists (S (c1 + c2)), (T1 ++ T2), k6. split; [lia|]. split; [exact L6|]. split; [|split; [|split]].
    + intros j Hj. rewrite (O6 j Hj), (O5 j) by lia. apply Old. exact Hj.
    + rewrite PM. rewrite <- P1, <- P2. rewrite <- app_assoc. apply Permutation_middle.
    + apply srt_three with S1 p S2; assumption.
    + intros fuel. replace (S (c1 + c2) + fuel)%nat with (S (c1 + (c2 + fuel))) by lia. rewrite Step. cbn [bind].
      replace (pre ++ S1 ++ p :: S2 ++ post) with ((pre ++ S1 ++ [p]) ++ S2 ++ post) by aeq.
      rewrite Q2. replace (i + 1 - 1) with i by lia.
      replace ((pre ++ S1 ++ [p]) ++ T2 ++ post) with (pre ++ (S1 ++ [p]) ++ T2 ++ post) by aeq.
      rewrite Q1. rewrite <- !app_assoc. reflexivity.
Qed.

Definition last_max (mid : list A) : Prop := exists mid' x, mid = mid' ++ [x] /\ Forall (fun e => 0 <= cmp x e) mid'.

Lemma part_fuel pre (p : A) M post : (length M < S (length (pre ++ (p :: M) ++ post)))%nat.
Proof. rewrite !app_length. cbn [length]. lia. Qed.

Lemma proc_flag n : (forall mid, zlen mid < n -> Proc mid (V (zlen mid))) ->
  forall mid, zlen mid = n -> 2 <= n -> last_max mid -> Proc mid (V n - 2).
Proof.
  intros IH mid Hn H2 (mid0 & x & -> & Fx) pre post stk i Hs Hi Hg Hp.
  destruct mid0 as [|p M0]; [cbn in Hn; zl; lia|]. cbn [app] in *.
  assert (Hne : M0 ++ [x] <> []) by (destruct M0; discriminate).
  destruct (partition_ok pre p (M0 ++ [x]) post _ (part_fuel pre p (M0 ++ [x]) post)) as (S1 & S2 & EP & PM & F1 & F2 & Fl).
  assert (S2 <> []) by (apply (Fl M0 x eq_refl); inversion Fx; assumption).
  assert (Hlen : zlen (M0 ++ [x]) = zlen S1 + zlen S2) by (unfold zlen; rewrite (Permutation_length PM), app_length; lia).
  assert (1 <= zlen S2) by (destruct S2; [contradiction|zl; pose proof (zlen_nonneg S2); lia]).
  pose proof (zlen_nonneg S1).
  assert (Hn2 : n = 1 + zlen S1 + zlen S2) by (rewrite <- Hn; cbn [app]; rewrite zlen_cons; lia).
  destruct (proc_split pre p (M0 ++ [x]) post stk i (V (zlen (S1 ++ [p]))) (V (zlen S2)) Hne Hs Hi Hg Hp S1 S2 EP PM F1 F2) as (c & mid' & stk' & Cb & R).
  - apply IH. zl. lia.
  - apply IH. lia.
  - exists c, mid', stk'. split; [|exact R]. rewrite zlen_app, zlen_cons, zlen_nil in Cb. unfold V in *. lia.
Qed.

Lemma proc_all n : forall mid, zlen mid <= Z.of_nat n -> Proc mid (V (zlen mid)).
Proof.
  induction n as [|n IHn]; intros mid Hmid.
  { intros pre post stk i Hs Hi Hg Hp. destruct (proc_small mid ltac:(lia) pre post stk i Hs Hi Hg Hp) as (c & m & s & C & R).
    exists c, m, s. split; [unfold V; lia|exact R]. }
  destruct (Z_le_gt_dec (zlen mid) (Z.of_nat n)) as [Hle|Hgt]; [apply IHn; exact Hle|].
  destruct (Z_le_gt_dec (zlen mid) 1) as [H1|H1].
  { intros pre post stk i Hs Hi Hg Hp. destruct (proc_small mid H1 pre post stk i Hs Hi Hg Hp) as (c & m & s & C & R).
    exists c, m, s. split; [unfold V; lia|exact R]. }
  assert (IH : forall mid0, zlen mid0 < zlen mid -> Proc mid0 (V (zlen mid0))) by (intros; apply IHn; lia).
  intros pre post stk i Hs Hi Hg Hp.
  destruct mid as [|p M]; [zl; lia|].
  assert (Hne : M <> []) by (intros ->; zl; lia).
  destruct (partition_ok pre p M post _ (part_fuel pre p M post)) as (S1 & S2 & EP & PM & F1 & F2 & Fl).
  assert (Hlen : zlen M = zlen S1 + zlen S2) by (unfold zlen; rewrite (Permutation_length PM), app_length; lia).
  destruct S2 as [|s S2].
  - rewrite zlen_nil in Hlen.
    destruct (proc_split pre p M post stk i (V (zlen (p :: M)) - 2) 1 Hne Hs Hi Hg Hp S1 [] EP PM F1 F2) as (c & mid' & stk' & Cb & R).
    + apply (proc_flag (zlen (p :: M)) IH); [zl; lia|lia|]. exists S1, p. split; [reflexivity|].
      eapply Forall_impl; [|exact F1]. intros e He. apply (cmp_flip cmp TP). exact He.
    + apply proc_small. rewrite zlen_nil. lia.
    + exists c, mid', stk'. split; [lia|exact R].
  - pose proof (zlen_nonneg S1). pose proof (zlen_nonneg S2).
    destruct (proc_split pre p M post stk i (V (zlen (S1 ++ [p]))) (V (zlen (s :: S2))) Hne Hs Hi Hg Hp S1 (s :: S2) EP PM F1 F2) as (c & mid' & stk' & Cb & R).
    + apply IH. zl. lia.
    + apply IH. zl. lia.
    + exists c, mid', stk'. split; [|exact R]. unfold V in *. zl. lia.
Qed.

Lemma qsort_correct pre mid post fuel : zlen mid <= 2 ^ 63 -> 4 * zlen mid + 2 <= Z.of_nat fuel ->
  exists mid', qsort cmp fuel (pre ++ mid ++ post) (zlen pre) (zlen pre + zlen mid - 1) = Ok (pre ++ mid' ++ post)
    /\ Permutation mid mid' /\ Srt mid'.
Proof.
  intros H63 Hf. unfold qsort. pose proof (zlen_nonneg pre). pose proof (zlen_nonneg mid).
  destruct (Z_le_gt_dec (zlen mid) 1) as [H1|H1].
  - replace ((0 <=? zlen pre) && (0 <=? zlen pre + zlen mid - 1) && (zlen pre <? zlen pre + zlen mid - 1)) with false by lia.
    exists mid. split; [reflexivity|]. split; [reflexivity|].
    destruct mid as [|a [|b t]]; [constructor|repeat constructor|]. zl. pose proof (zlen_nonneg t). lia.
  - replace ((0 <=? zlen pre) && (0 <=? zlen pre + zlen mid - 1) && (zlen pre <? zlen pre + zlen mid - 1)) with true by lia.
    destruct (proc_all (Z.to_nat (zlen mid)) mid ltac:(lia) pre post ((zlen pre, zlen pre + zlen mid - 1) :: repeat (0, 0) 63) 0
        eq_refl ltac:(lia) eq_refl H63) as (c & mid' & stk' & Cb & _ & _ & P & R & Q).
    exists mid'. split; [|auto]. unfold V in Cb.
    replace fuel with (c + S (fuel - S c))%nat by lia. rewrite Q. reflexivity.
Qed.

(** ** Quickselect *)
(** [e] is the element of rank [k]: fewer than or exactly [k] are smaller, more than [k] are not greater. *)
Lemma qselect_ok : forall n pre mid post k, zlen pre <= k < zlen pre + zlen mid ->
  exists l' r, qselect_loop cmp n (pre ++ mid ++ post) (zlen pre) (zlen pre + zlen mid - 1) k = Ok (l', r) /\
   (match r with
    | None => Z.of_nat n < zlen mid
    | Some e => exists L R, Permutation mid (L ++ e :: R) /\ zlen pre + zlen L = k /\
                 Forall (fun x => cmp x e <= 0) L /\ Forall (fun x => 0 <= cmp x e) R
    end).
Proof.
  induction n as [|n IH]; intros pre mid post k Hk; cbn [qselect_loop].
  { do 2 eexists. split; [reflexivity|]. cbn. lia. }
  destruct (Z.leb_spec (zlen pre) (zlen pre + zlen mid - 1)) as [Hle|]; [|lia].
  destruct mid as [|p M]; [zl; lia|].
  destruct (partition_ok pre p M post _ (part_fuel pre p M post)) as (S1 & S2 & EP & PM & F1 & F2 & Fl).
  assert (Hlen : zlen M = zlen S1 + zlen S2) by (unfold zlen; rewrite (Permutation_length PM), app_length; lia).
  rewrite zlen_cons. replace (zlen pre + (1 + zlen M) - 1) with (zlen pre + zlen M) by lia. rewrite EP. cbn [bind].
  pose proof (zlen_nonneg S1). pose proof (zlen_nonneg S2).
  destruct (Z.eqb_spec k (zlen pre + zlen S1)) as [->|Hne].
  - replace (pre ++ S1 ++ p :: S2 ++ post) with ((pre ++ S1) ++ p :: S2 ++ post) by aeq.
    rewrite get_app by (zl; lia). cbn [bind]. do 2 eexists. split; [reflexivity|]. exists S1, S2. split; [|auto].
    rewrite PM. apply Permutation_middle.
  - zl. destruct (Z.ltb_spec k (zlen pre + zlen S1)) as [Hlt|Hge].
    + destruct (IH pre S1 (p :: S2 ++ post) k ltac:(lia)) as (l' & r & E & Hr).
      rewrite E. exists l', r. split; [reflexivity|]. destruct r as [e|]; [|lia].
      destruct Hr as (L & R & P & Hz & FL & FR). exists L, (R ++ p :: S2). split; [|split; [exact Hz|split; [exact FL|]]].
      * transitivity (p :: (L ++ e :: R) ++ S2); [rewrite PM, P; reflexivity|].
        replace (L ++ e :: R ++ p :: S2) with ((L ++ e :: R) ++ p :: S2) by aeq. apply Permutation_middle.
      * assert (He : cmp e p <= 0). { rewrite Forall_forall in F1. apply F1. apply (Permutation_in _ (Permutation_sym P)). apply in_or_app. right. left. reflexivity. }
        apply Forall_app. split; [exact FR|]. constructor; [apply (cmp_flip cmp TP); exact He|].
        rewrite Forall_forall in F2 |- *. intros z Hz2. specialize (F2 z Hz2). apply (cmp_flip cmp TP). apply (tp_trans _ TP) with p; [exact He|]. apply (cmp_flip cmp TP). exact F2.
    + replace (pre ++ S1 ++ p :: S2 ++ post) with ((pre ++ S1 ++ [p]) ++ S2 ++ post) by aeq.
      replace (zlen pre + zlen S1 + 1) with (zlen (pre ++ S1 ++ [p])) by (zl; lia).
      replace (zlen pre + zlen M) with (zlen (pre ++ S1 ++ [p]) + zlen S2 - 1) by (zl; lia).
      destruct (IH (pre ++ S1 ++ [p]) S2 post k ltac:(zl; lia)) as (l' & r & E & Hr).
      rewrite E. exists l', r. split; [reflexivity|]. destruct r as [e|]; [|lia].
      destruct Hr as (L & R & P & Hz & FL & FR). exists (S1 ++ p :: L), R. split; [|split; [zl; lia|split; [|exact FR]]].
      * rewrite PM, P. rewrite <- app_assoc. cbn [app]. rewrite Permutation_middle. reflexivity.
      * assert (He : 0 <= cmp e p). { rewrite Forall_forall in F2. apply F2. apply (Permutation_in _ (Permutation_sym P)). apply in_or_app. right. left. reflexivity. }
        apply (cmp_flip cmp TP) in He.
        apply Forall_app. split; [|constructor; [exact He|exact FL]].
        rewrite Forall_forall in F1 |- *. intros z Hz2. apply (tp_trans _ TP) with p; [apply F1; exact Hz2|exact He].
Qed.

(** The element of rank k equals the k-th element of any sorted rearrangement. *)
Lemma rank_sorted l s e L R : Permutation l s -> Srt s -> Permutation l (L ++ e :: R) ->
  Forall (fun x => cmp x e <= 0) L -> Forall (fun x => 0 <= cmp x e) R ->
  forall x, nth_error s (length L) = Some x -> cmp e x = 0.
Proof.
  intros P1 Ss P2 FL FR x Hx.
  assert (PS : Permutation s (L ++ e :: R)) by (rewrite <- P1; exact P2). clear P1 P2 l.
  apply nth_error_split in Hx. destruct Hx as (s1 & s2 & -> & Hl).
  apply srt_app in Ss. destruct Ss as (_ & S2 & S12). inversion S2 as [|? ? _ Fx]; subst. rewrite Forall_forall in Fx.
  assert (Sx : forall a, In a s1 -> cmp a x <= 0) by (intros a Ha; apply S12; [exact Ha|left; reflexivity]).
  (* counting argument through a filter *)
  pose (cnt := fun (f : A -> bool) l => length (filter f l)).
  assert (CP : forall f, cnt f (s1 ++ x :: s2) = cnt f (L ++ e :: R)).
  { intros f. subst cnt. cbn beta. clear - PS. induction PS; cbn [filter]; try (destruct (f x0)); try (destruct (f y)); cbn [length]; congruence. }
  assert (CA : forall f a b, cnt f (a ++ b) = (cnt f a + cnt f b)%nat) by (intros; subst cnt; cbn beta; rewrite filter_app, app_length; reflexivity).
  assert (CL : forall f a, (cnt f a <= length a)%nat).
  { intros f a. subst cnt. cbn beta. induction a as [|y a IHa]; cbn; [lia|]. destruct (f y); cbn; lia. }
  assert (CT : forall f a, (forall y, In y a -> f y = true) -> cnt f a = length a).
  { intros f a. subst cnt. cbn beta. induction a as [|y a IHa]; intros Hy; [reflexivity|]. cbn. rewrite (Hy y (or_introl eq_refl)). cbn. rewrite IHa; [reflexivity|]. intros; apply Hy; right; assumption. }
  assert (CF : forall f a, (forall y, In y a -> f y = false) -> cnt f a = 0%nat).
  { intros f a. subst cnt. cbn beta. induction a as [|y a IHa]; intros Hy; [reflexivity|]. cbn. rewrite (Hy y (or_introl eq_refl)). apply IHa. intros; apply Hy; right; assumption. }
  assert (CC : forall f y a, cnt f (y :: a) = ((if f y then 1 else 0) + cnt f a)%nat) by (intros; subst cnt; cbn; destruct (f y); reflexivity).
  rewrite Forall_forall in FL, FR.
  destruct (Z.lt_trichotomy (cmp e x) 0) as [Hlt|[He|Hgt]]; [exfalso|exact He|exfalso].
  - (* x > e: then all of L and e are below x : at least |L|+1 elements < x; but only s1 can be *)
    pose (f := fun a => cmp a x <? 0).
    assert (Hle : (length L + 1 <= cnt f (L ++ e :: R))%nat).
    { rewrite CA, CC, (CT f L); [|intros y Hy; unfold f; apply Z.ltb_lt].
      - unfold f. replace (cmp e x <? 0) with true by lia. lia.
      - destruct (Z.lt_ge_cases (cmp y x) 0) as [Q|Q]; [exact Q|]. apply (cmp_flip cmp TP) in Q.
        pose proof (tp_trans _ TP _ _ _ Q (FL y Hy)) as Q2. apply (cmp_flip cmp TP) in Q2. lia. }
    assert (Hge : (cnt f (s1 ++ x :: s2) <= length s1)%nat).
    { rewrite CA, CC. unfold f at 2. rewrite (cmp_refl cmp TP). cbn [Z.ltb Z.compare].
      rewrite (CF f s2); [pose proof (CL f s1); lia|]. intros y Hy. unfold f. specialize (Fx y Hy). apply (cmp_flip cmp TP) in Fx. lia. }
    rewrite CP in Hge. lia.
  - pose (f := fun a => cmp a x <=? 0).
    assert (Hle : (cnt f (L ++ e :: R) <= length L)%nat).
    { rewrite CA, CC. unfold f at 2. replace (cmp e x <=? 0) with false by lia.
      rewrite (CF f R); [pose proof (CL f L); lia|]. intros y Hy. unfold f. apply Z.leb_gt.
      destruct (Z.lt_ge_cases 0 (cmp y x)) as [Q|Q]; [exact Q|]. specialize (FR y Hy). apply (cmp_flip cmp TP) in FR.
      pose proof (tp_trans _ TP _ _ _ FR Q). lia. }
    assert (Hge : (length s1 + 1 <= cnt f (s1 ++ x :: s2))%nat).
    { rewrite CA, CC, (CT f s1); [|intros y Hy; unfold f; apply Z.leb_le; apply Sx; exact Hy].
      unfold f. rewrite (cmp_refl cmp TP). cbn. lia. }
    rewrite CP in Hge. lia.
Qed.
End Quick.
