From Coq Require Import ZArith Bool List Lia ZifyBool Permutation Sorting.Sorted.
From Verif Require Import Word Mach SortModel SortSpec SortProofs SortProofs2 CSortModel CSortProofs.
Import ListNotations.
Open Scope Z_scope.

Lemma swrap_small bits z : 1 <= bits -> - 2 ^ (bits - 1) <= z < 2 ^ (bits - 1) -> swrap bits z = z.
Proof.
  intros Hb Hz. unfold swrap. assert (E : 2 ^ bits = 2 * 2 ^ (bits - 1)) by (rewrite <- Z.pow_succ_r by lia; f_equal; lia).
  destruct (Z_le_gt_dec 0 z).
  - rewrite Z.mod_small by lia. destruct (Z.ltb_spec z (2 ^ (bits - 1))); [reflexivity|lia].
  - assert (Em : z mod 2 ^ bits = z + 2 ^ bits) by (symmetry; apply (Zmod_unique _ _ (-1)); lia).
    rewrite Em. destruct (Z.ltb_spec (z + 2 ^ bits) (2 ^ (bits - 1))); lia.
Qed.

Lemma perm_concat {A} : forall (bs bs' : list (list A)), length bs = length bs' ->
  (forall b m m', nth_error bs b = Some m -> nth_error bs' b = Some m' -> Permutation m m') -> Permutation (concat bs) (concat bs').
Proof.
  induction bs as [|m bs IH]; intros [|m' bs'] Hl H; try discriminate; [reflexivity|]. cbn [concat].
  apply Permutation_app; [apply (H 0%nat m m' eq_refl eq_refl)|]. apply IH; [cbn in Hl; lia|]. intros b x x' Hx Hx'. apply (H (S b) x x' Hx Hx').
Qed.

Section CS2.
Context {A : Type} (key : A -> Z) (w : Z) (sgn : bool).
Hypothesis Hw : 1 <= w < 2 ^ 31.
Notation cmpk := (compare_keys key).
Notation Srt := (StronglySorted (le cmpk)).
Definition KeyOk (a : A) : Prop := if sgn then 0 <= key a < 2 ^ (8 * w - 1) else 0 <= key a < 2 ^ (8 * w).

Lemma cmpk_tp : TotalPreorder cmpk.
Proof.
  split; unfold compare_keys; intros.
  - destruct (Z.ltb_spec (key b) (key a)), (Z.ltb_spec (key a) (key b)); try lia; reflexivity.
  - destruct (Z.ltb_spec (key b) (key a)), (Z.ltb_spec (key a) (key b)), (Z.ltb_spec (key c) (key b)), (Z.ltb_spec (key b) (key c)), (Z.ltb_spec (key c) (key a)), (Z.ltb_spec (key a) (key c)); lia.
Qed.
Lemma le_key a b : le cmpk a b <-> key a <= key b.
Proof. unfold le, compare_keys. destruct (Z.ltb_spec (key b) (key a)), (Z.ltb_spec (key a) (key b)); lia. Qed.

Definition hi (bi : Z) (a : A) : Z := Z.shiftr (key a) (8 * (bi + 1)).
Lemma shift_hi bi a : 0 <= bi -> hi bi a = Z.shiftr (key a) (8 * bi) / 256.
Proof. intros H. unfold hi. replace (8 * (bi + 1)) with (8 * bi + 8) by lia. rewrite <- Z.shiftr_shiftr by lia. rewrite (Z.shiftr_div_pow2 _ 8) by lia. reflexivity. Qed.
Lemma byte_lt bi a b : 0 <= bi -> hi bi a = hi bi b -> key_byte key bi a < key_byte key bi b -> key a < key b.
Proof.
  intros H Hh Hb. rewrite !shift_hi in Hh by exact H. unfold key_byte in Hb.
  assert (Q : Z.shiftr (key a) (8 * bi) < Z.shiftr (key b) (8 * bi)).
  { rewrite (Z.div_mod (Z.shiftr (key a) (8 * bi)) 256), (Z.div_mod (Z.shiftr (key b) (8 * bi)) 256) by lia. lia. }
  rewrite !Z.shiftr_div_pow2 in Q by lia. destruct (Z.lt_ge_cases (key a) (key b)) as [|Hge]; [assumption|exfalso].
  pose proof (Z.div_le_mono (key b) (key a) (2 ^ (8 * bi)) ltac:(apply Z.pow_pos_nonneg; lia) Hge). lia.
Qed.
Lemma byte_eq_shift bi a b : 0 <= bi -> hi bi a = hi bi b -> key_byte key bi a = key_byte key bi b -> Z.shiftr (key a) (8 * bi) = Z.shiftr (key b) (8 * bi).
Proof.
  intros H Hh Hb. rewrite !shift_hi in Hh by exact H. unfold key_byte in Hb.
  rewrite (Z.div_mod (Z.shiftr (key a) (8 * bi)) 256), (Z.div_mod (Z.shiftr (key b) (8 * bi)) 256) by lia. lia.
Qed.

Lemma srt_equal l : (forall x y, In x l -> In y l -> key x = key y) -> Srt l.
Proof.
  induction l as [|a l IH]; intros H; constructor.
  - apply IH. intros; apply H; right; assumption.
  - apply Forall_forall. intros y Hy. apply le_key. rewrite (H a y (or_introl eq_refl) (or_intror Hy)). lia.
Qed.

(** Sorted buckets in order make a sorted list. *)
Lemma srt_concat bi bs : 0 <= bi -> forall k,
  (forall b m, nth_error bs b = Some m -> Srt m /\ Forall (fun a => key_byte key bi a = k + Z.of_nat b) m) ->
  (forall x y, In x (concat bs) -> In y (concat bs) -> hi bi x = hi bi y) ->
  Srt (concat bs).
Proof.
  intros Hbi. induction bs as [|m bs IH]; intros k H Hh; cbn [concat] in *; [constructor|].
  apply srt_app. split; [apply (H 0%nat m eq_refl)|]. split.
  - apply (IH (k + 1)).
    + intros b y Hy. specialize (H (S b) y Hy). replace (k + 1 + Z.of_nat b) with (k + Z.of_nat (S b)) by lia. exact H.
    + intros x y Hx Hy. apply Hh; apply in_or_app; right; assumption.
  - intros a b Ha Hb. apply le_key. apply Z.lt_le_incl. apply (byte_lt bi); [exact Hbi|apply Hh; apply in_or_app; auto|].
    destruct (H 0%nat m eq_refl) as [_ F]. rewrite Forall_forall in F. rewrite (F a Ha).
    apply in_concat in Hb. destruct Hb as (y & Hy & Hb). apply In_nth_error in Hy. destruct Hy as [q Hq].
    destruct (H (S q) y Hq) as [_ F2]. rewrite Forall_forall in F2. rewrite (F2 b Hb). lia.
Qed.

Definition Sh (bi : Z) (l : list A) : Prop := forall x y, In x l -> In y l -> hi bi x = hi bi y.

Lemma diff_zero mid mn mx : mid <> [] -> Forall KeyOk mid ->
  mn <= kwrap w sgn (-1) -> (mn = kwrap w sgn (-1) \/ exists x, In x mid /\ mn = key x) -> (forall x, In x mid -> mn <= key x) ->
  0 <= mx -> (mx = 0 \/ exists x, In x mid /\ mx = key x) -> (forall x, In x mid -> key x <= mx) ->
  kwrap w sgn (mx - mn) = 0 -> forall x y, In x mid -> In y mid -> key x = key y.
Proof.
  intros Hne HK M1 M2 M3 X1 X2 X3 H0. rewrite Forall_forall in HK. unfold KeyOk, kwrap in *.
  assert (P1 : 0 < 2 ^ (8 * w - 1)) by (apply Z.pow_pos_nonneg; lia).
  assert (E : 2 ^ (8 * w) = 2 * 2 ^ (8 * w - 1)) by (rewrite <- Z.pow_succ_r by lia; f_equal; lia).
  destruct sgn.
  - exfalso. assert (Hx : mx < 2 ^ (8 * w - 1)) by (destruct X2 as [->|(x & Hx & ->)]; [lia|apply HK; exact Hx]).
    rewrite swrap_small in M1, M2 by lia. assert (mn = -1) by (destruct M2 as [|(x & Hx2 & ->)]; [assumption|specialize (HK x Hx2); lia]). subst mn.
    unfold swrap in H0.
    rewrite Z.mod_small in H0 by lia. destruct (mx - -1 <? 2 ^ (8 * w - 1)); lia.
  - assert (Em : uwrap (8 * w) (-1) = 2 ^ (8 * w) - 1).
    { unfold uwrap. symmetry. apply (Zmod_unique _ _ (-1)); lia. }
    rewrite Em in *. assert (Hx : mx < 2 ^ (8 * w)) by (destruct X2 as [->|(x & Hx & ->)]; [lia|apply HK; exact Hx]).
    assert (0 <= mn) by (destruct M2 as [->|(x & Hx' & ->)]; [lia|apply HK; exact Hx']).
    assert (mn <= mx) by (destruct mid as [|a t]; [congruence|]; specialize (M3 a (or_introl eq_refl)); specialize (X3 a (or_introl eq_refl)); lia).
    unfold uwrap in H0. rewrite Z.mod_small in H0 by lia. intros x y Hx1 Hy1.
    pose proof (M3 x Hx1). pose proof (X3 x Hx1). pose proof (M3 y Hy1). pose proof (X3 y Hy1). lia.
Qed.

Lemma csort_ok : forall depth bidx bi pre mid post, 0 <= bidx -> bi = (if w <=? bidx then w - 1 else bidx) -> (Z.to_nat bi < depth)%nat ->
  Forall KeyOk mid -> Sh bi mid ->
  exists mid', csort key w sgn depth (pre ++ mid ++ post) (zlen pre) (zlen pre + zlen mid) bidx = Ok (pre ++ mid' ++ post) /\ Permutation mid mid' /\ Srt mid'.
Proof.
  induction depth as [|d IH]; intros bidx bi pre mid post Hbidx Ebi Hd HK HSh; [lia|].
  assert (Hbi : 0 <= bi < w) by (subst bi; destruct (Z.leb_spec w bidx); lia).
  cbn [csort]. rewrite <- Ebi. cbv zeta. pose proof (zlen_nonneg mid) as Hz.
  destruct (Z.leb_spec (zlen pre + zlen mid) (zlen pre)) as [Hle|Hgt].
  { exists mid. split; [reflexivity|]. split; [reflexivity|]. destruct mid; [constructor|]. rewrite zlen_cons in *. pose proof (zlen_nonneg mid). lia. }
  remember (S (length (pre ++ mid ++ post))) as n eqn:En.
  assert (Hn : (length mid < n)%nat) by (rewrite En, !app_length; lia).
  destruct (count_loop_ok key bi mid pre post n (repeat 0 256) (fun _ => 0) (kwrap w sgn (-1)) 0 0 true Hn (arr_repeat 256 0))
    as (counts & mn & mx & ord & E & HA & M1 & M2 & M3 & X1 & X2 & X3 & HO).
  rewrite E. cbn [bind].
  destruct (Z.eqb_spec (kwrap w sgn (mx - mn)) 0) as [Hd0|Hd0].
  { exists mid. split; [reflexivity|]. split; [reflexivity|]. apply srt_equal.
    apply (diff_zero mid mn mx); try assumption. intros ->. rewrite zlen_nil in Hgt. lia. }
  set (c0 := fun b => cntb key bi b mid).
  assert (Hc0 : forall b, 0 <= c0 b) by (intros; apply cntb_nonneg).
  pose proof (off_total key bi c0 mid (fun b => eq_refl)) as Htot.
  destruct (fun H1 H2 H3 H4 => offsets_ok bi (proj1 Hbi) c0 Hc0 256 0 counts (repeat 0 257) (repeat 0 256) _ _ _ eq_refl HA H1 (arr_repeat 257 0) H2 (arr_repeat 256 0) H3 H4)
    as (counts' & ranges' & indexs' & rr' & xx' & E2 & Hc' & Hr' & Hrr' & Hx' & I0 & I2).
  { intros b Hb. destruct (Z.ltb_spec b (Z.of_nat 0)); [lia|]. reflexivity. }
  { intros b Hb. lia. }
  { intros [|p] x Hp; discriminate. }
  { intros [|p] x Hp; discriminate. }
  change (zlen (cls (p0 c0) 0)) with 0 in E2. change (zlen (cls (p2 c0) 0)) with 0 in E2. change (off c0 (Z.of_nat 0)) with 0 in E2. change (Z.of_nat 0) with 0 in E2. rewrite E2. cbn [bind].
  destruct (arr_set _ _ _ 256 (off c0 256) Hr' ltac:(lia)) as (ranges & Er & Hr). rewrite Er. cbn [bind].
  apply arr_ext with (g := off c0) in Hr; [|intros b Hb; cbn beta; destruct (Z.eqb_spec b 256) as [->|]; [reflexivity|apply Hrr'; lia]].
  destruct (fallback1_ok bi c0 Hc0 ranges Hr 256 0 indexs' _ eq_refl Hx' I0 I2) as (indexs & E3 & J0 & J2 & J1).
  { intros [|p] x Hp; discriminate. }
  change (zlen (cls (p1 c0) 0)) with 0 in E3. rewrite Z.sub_0_r in E3. change (Z.of_nat 0) with 0 in E3. rewrite E3. cbn [bind].
  (* the list split into buckets *)
  assert (HP : exists bs, (if ord then Ok (pre ++ mid ++ post) else place_loop key n n bi (zlen pre) (pre ++ mid ++ post) counts' ranges 0)
                = Ok (pre ++ concat bs ++ post) /\ Permutation mid (concat bs) /\ Buckets key bi c0 bs 256).
  { destruct ord.
    - destruct (HO eq_refl) as [_ HS]. apply Sorted_inv in HS. destruct HS as [HS _].
      destruct (buckets_of_ordered key bi c0 Hc0 mid (fun b => eq_refl)) as (bs & HB & Ec); [assumption|].
      exists bs. rewrite Ec. split; [reflexivity|]. split; [reflexivity|exact HB].
    - assert (I : Inv key bi c0 mid mid counts' (off c0)).
      { split; [exact Hc'| |intros; lia|reflexivity]. intros b Hb. split; [lia|]. apply off_mono; [exact Hc0|lia]. }
      assert (HR : Rem c0 (off c0) = zlen mid).
      { rewrite Rem_def, <- Htot. change (off c0 256) with (sumn c0 256). apply sumn_ext. intros b Hb. rewrite (off_S c0 Hc0) by lia. lia. }
      destruct (place_loop_ok key bi c0 Hc0 mid (fun b => eq_refl) ranges pre post n Hr ltac:(unfold zlen; lia) n mid counts' (off c0) 0 I ltac:(lia) ltac:(rewrite HR; unfold zlen; lia))
        as (mid' & Ep & Pm & Hpl).
      assert (Lm : zlen mid' = off c0 (Z.of_nat 256)).
      { change (Z.of_nat 256) with 256. rewrite Htot. unfold zlen. rewrite (Permutation_length Pm). reflexivity. }
      destruct (buckets_of_placed key bi c0 Hc0 mid (fun b => eq_refl) 256 mid' Lm) as (bs & HB & Ec).
      { intros b p a Hb. apply Hpl. change (Z.of_nat 256) with 256 in Hb. exact Hb. }
      exists bs. rewrite Ec. split; [exact Ep|]. split; [exact Pm|exact HB]. }
  destruct HP as (bs & Ep & Pm & HB). rewrite Ep. cbn [bind].
  assert (HShc : Sh bi (concat bs)).
  { intros x y Hx Hy. apply HSh; apply (Permutation_in _ (Permutation_sym Pm)); assumption. }
  assert (HKc : Forall KeyOk (concat bs)).
  { rewrite Forall_forall in *. intros x Hx. apply HK. apply (Permutation_in _ (Permutation_sym Pm)). exact Hx. }
  assert (Inb : forall b m x, nth_error bs b = Some m -> In x m -> In x (concat bs)).
  { intros b m x Hm Hx. apply in_concat. exists m. split; [eapply nth_error_In; exact Hm|exact Hx]. }
  (* within a bucket, the keys agree down to and including this byte *)
  assert (Hsame : forall b m, nth_error bs b = Some m -> forall x y, In x m -> In y m -> Z.shiftr (key x) (8 * bi) = Z.shiftr (key y) (8 * bi)).
  { intros b m Hm x y Hx Hy. destruct HB as [_ HBb]. destruct (HBb b m Hm) as [_ F]. rewrite Forall_forall in F.
    apply byte_eq_shift; [lia|apply HShc; eapply Inb; eassumption|]. rewrite (F x Hx), (F y Hy). reflexivity. }
  destruct (Z.eqb_spec bi 0) as [Hb0|Hb0].
  { exists (concat bs). split; [reflexivity|]. split; [exact Pm|]. apply (srt_concat bi bs ltac:(lia) 0); [|exact HShc].
    intros b m Hm. split; [|apply (proj2 HB b m Hm)]. apply srt_equal. intros x y Hx Hy. pose proof (Hsame b m Hm x y Hx Hy) as Q.
    rewrite Hb0 in Q. exact Q. }
  set (Q := fun (b : Z) (m : list A) => zlen m = c0 b /\ (length m < n)%nat /\ Forall KeyOk m /\ Sh (bi - 1) m).
  assert (HQp : forall b m m', Q b m -> Permutation m m' -> Q b m').
  { intros b m m' (Q1 & Q2 & Q3 & Q4) P. unfold Q, zlen in *. rewrite <- (Permutation_length P). split; [exact Q1|]. split; [exact Q2|]. split.
    - rewrite Forall_forall in *. intros x Hx. apply Q3. apply (Permutation_in _ (Permutation_sym P)). exact Hx.
    - intros x y Hx Hy. apply Q4; apply (Permutation_in _ (Permutation_sym P)); assumption. }
  assert (HQ0 : forall b m, nth_error bs b = Some m -> Q (Z.of_nat b) m).
  { intros b m Hm. split; [apply (proj2 HB b m Hm)|]. split.
    - pose proof (Permutation_length Pm) as PL. apply nth_error_split in Hm. destruct Hm as (u & v & -> & _). rewrite concat_app, app_length in PL. cbn [concat] in PL. rewrite app_length in PL. lia.
    - split; [rewrite Forall_forall in *; intros x Hx; apply HKc; eapply Inb; eassumption|].
      intros x y Hx Hy. unfold hi. replace (bi - 1 + 1) with bi by lia. eapply Hsame; eassumption. }
  assert (Lstep : forall bs bs' L, After key bs bs' L -> (forall b m, nth_error bs b = Some m -> Q (Z.of_nat b) m) -> forall b m, nth_error bs' b = Some m -> Q (Z.of_nat b) m).
  { intros u v L [Al Ab] Hu b m Hm. destruct (nth_error u b) as [m0|] eqn:E0; [|apply nth_error_None in E0; assert (nth_error v b <> None) as X by congruence; apply nth_error_Some in X; lia].
    destruct (Ab b m0 m E0 Hm) as (P & _). apply (HQp _ m0); [apply Hu; exact E0|exact P]. }
  (* the three loops *)
  destruct (index_loop_ok key bi c0 Hc0 mid (fun b => eq_refl) indexs ranges pre post (fun p => p) Q (fun l s e => isort cmpk n l s e) Hr HQp (cls (p0 c0) 256) 0 bs) as (bs1 & F1 & A1).
  { intros b Hb. apply (cls_in bi c0 Hc0) in Hb. destruct Hb as [Hb _]. split; [lia|]. intros u m v (_ & Hl & _).
    destruct (isort_correct cmpk cmpk_tp u m v n Hl) as (m' & Em & Pm' & Sm' & _). eauto. }
  { intros q x Hq. apply (J0 q x Hq). } { exact HB. } { exact HQ0. }
  unfold zlen at 1. rewrite Nat2Z.id. change (Z.of_nat 0) with 0 in F1. rewrite F1. cbn [bind].
  pose proof (after_buckets key bi c0 Hc0 mid (fun b => eq_refl) bs bs1 _ _ A1 HB) as HB1. pose proof (Lstep _ _ _ A1 HQ0) as HQ1.
  destruct (index_loop_ok key bi c0 Hc0 mid (fun b => eq_refl) indexs ranges pre post (fun p => zlen (cls (p0 c0) 256) + p) Q (fun l s e => qsort cmpk (4 * n + 2) l s (e - 1)) Hr HQp (cls (p1 c0) 256) 0 bs1) as (bs2 & F2 & A2).
  { intros b Hb. apply (cls_in bi c0 Hc0) in Hb. destruct Hb as [Hb Hp]. split; [lia|]. intros u m v (Hlb & Hl & _).
    apply andb_true_iff in Hp. destruct Hp as [_ Hp]. apply Z.leb_le in Hp.
    apply (qsort_correct cmpk cmpk_tp u m v (4 * n + 2)); [apply Z.le_trans with 128; [lia|discriminate]|unfold zlen; lia]. }
  { intros q x Hq. apply (J1 q x Hq). } { exact HB1. } { exact HQ1. }
  unfold zlen at 1. rewrite Nat2Z.id. change (Z.of_nat 0) with 0 in F2. rewrite F2. cbn [bind].
  pose proof (after_buckets key bi c0 Hc0 mid (fun b => eq_refl) bs1 bs2 _ _ A2 HB1) as HB2. pose proof (Lstep _ _ _ A2 HQ1) as HQ2.
  destruct (index_loop_ok key bi c0 Hc0 mid (fun b => eq_refl) indexs ranges pre post (fun p => 255 - p) Q (fun l s e => csort key w sgn d l s e (bi - 1)) Hr HQp (cls (p2 c0) 256) 0 bs2) as (bs3 & F3 & A3).
  { intros b Hb. apply (cls_in bi c0 Hc0) in Hb. destruct Hb as [Hb Hp]. split; [lia|]. intros u m v (Hlb & Hl & Hkm & Hsm).
    apply (IH (bi - 1) (bi - 1) u m v); [lia|destruct (Z.leb_spec w (bi - 1)); lia|lia|exact Hkm|exact Hsm]. }
  { intros q x Hq. apply (J2 q x Hq). } { exact HB2. } { exact HQ2. }
  unfold zlen at 1. rewrite Nat2Z.id. change (Z.of_nat 0) with 0 in F3. rewrite F3.
  pose proof (after_trans key bi c0 Hc0 mid (fun b => eq_refl) bs bs2 bs3 _ _ (after_trans key bi c0 Hc0 mid (fun b => eq_refl) bs bs1 bs2 _ _ A1 A2) A3) as AA.
  pose proof (after_buckets key bi c0 Hc0 mid (fun b => eq_refl) bs2 bs3 (cls (p2 c0) 256) 256 A3 HB2) as HB3.
  exists (concat bs3). split; [reflexivity|].
  destruct AA as [Al Ab].
  assert (P3 : Permutation (concat bs) (concat bs3)).
  { apply perm_concat; [lia|]. intros b m m' Hm Hm'. apply (Ab b m m' Hm Hm'). }
  split; [etransitivity; eassumption|].
  apply (srt_concat bi bs3 ltac:(lia) 0).
  - intros b m Hm. split; [|apply (proj2 HB3 b m Hm)].
    destruct (nth_error bs b) as [m0|] eqn:E0; [|apply nth_error_None in E0; assert (nth_error bs3 b <> None) as X by congruence; apply nth_error_Some in X; lia].
    destruct (Ab b m0 m E0 Hm) as (_ & Q2 & Q3).
    assert (Hlb : (b < 256)%nat) by (destruct HB as [<- _]; apply nth_error_Some; congruence).
    destruct (Z_le_gt_dec (c0 (Z.of_nat b)) 1) as [Hs|Hs].
    + apply Q2. pose proof (proj1 (proj2 HB b m0 E0)) as Z0. destruct m0 as [|u [|v t]]; [constructor|repeat constructor|].
      rewrite !zlen_cons in Z0. pose proof (zlen_nonneg t). lia.
    + apply Q3. apply in_or_app. destruct (Z_le_gt_dec (c0 (Z.of_nat b)) 32); [left; apply in_or_app; left; apply (cls_in bi c0 Hc0); unfold p0; lia|].
      destruct (Z_le_gt_dec (c0 (Z.of_nat b)) 128); [left; apply in_or_app; right; apply (cls_in bi c0 Hc0); unfold p1; lia|right; apply (cls_in bi c0 Hc0); unfold p2; lia].
  - intros x y Hx Hy. apply HShc; apply (Permutation_in _ (Permutation_sym P3)); assumption.
Qed.

Lemma countingsort_ok l : Forall KeyOk l ->
  exists l', countingsort key w sgn l = Ok l' /\ Permutation l l' /\ Srt l'.
Proof.
  intros HK. unfold countingsort.
  destruct (csort_ok (S (Z.to_nat w)) (2 ^ 32 - 1) (w - 1) [] l []) as (l' & E & P & S).
  - lia.
  - destruct (Z.leb_spec w (2 ^ 32 - 1)); [reflexivity|]. change (2 ^ 31) with 2147483648 in Hw. change (2 ^ 32) with 4294967296 in *. lia.
  - lia.
  - exact HK.
  - assert (Z0 : forall x, In x l -> hi (w - 1) x = 0).
    { intros x Hx. rewrite Forall_forall in HK. specialize (HK x Hx). unfold hi. replace (8 * (w - 1 + 1)) with (8 * w) by lia.
      rewrite Z.shiftr_div_pow2 by lia. apply Z.div_small. unfold KeyOk in HK. destruct sgn; [|lia].
      assert (E : 2 ^ (8 * w) = 2 * 2 ^ (8 * w - 1)) by (rewrite <- Z.pow_succ_r by lia; f_equal; lia). lia. }
    intros x y Hx Hy. rewrite (Z0 x Hx), (Z0 y Hy). reflexivity.
  - exists l'. cbn [app] in E. rewrite !app_nil_r, zlen_nil, Z.add_0_l in E. auto.
Qed.
End CS2.
