(** Proofs about views of arrays. *)
From Coq Require Import ZArith Bool List Lia ZifyBool.
From Verif Require Import Mach Sl2Model Sl2Spec.
Import ListNotations.
Local Open Scope Z_scope.

Section P.
Context {A : Type}.
Implicit Types (rows : list (list A)).

Lemma skip_skip {B} (l : list B) : forall a b, skipn a (skipn b l) = skipn (b + a) l.
Proof. induction l as [|x l IH]; intros a [|b]; try (rewrite ?skipn_nil; reflexivity). cbn [skipn Nat.add]. apply IH. Qed.
Lemma part_part {B} (l : list B) x w x' w' : 0 <= x -> 0 <= x' -> 0 <= w' -> x' + w' <= w -> part x' w' (part x w l) = part (x' + x) w' l.
Proof.
  intros H1 H2 H3 H4. unfold part. rewrite skipn_firstn_comm, skip_skip, firstn_firstn. f_equal; [lia|]. f_equal. lia.
Qed.
Lemma part_len {B} (l : list B) x w : 0 <= x -> 0 <= w -> x + w <= zlen l -> zlen (part x w l) = w.
Proof. intros. unfold part, zlen in *. rewrite firstn_length, skipn_length. lia. Qed.
Lemma part_all {B} (l : list B) : part 0 (zlen l) l = l.
Proof. unfold part, zlen. rewrite Nat2Z.id. cbn [Z.to_nat skipn]. apply firstn_all. Qed.
Lemma part_map {B C} (f : B -> C) x w l : part x w (map f l) = map f (part x w l).
Proof. unfold part. rewrite skipn_map, firstn_map. reflexivity. Qed.
Lemma part_in {B} (l : list B) x w r : In r (part x w l) -> In r l.
Proof. unfold part. intros H. rewrite <- (firstn_skipn (Z.to_nat x) l). apply in_or_app. right. rewrite <- (firstn_skipn (Z.to_nat w) (skipn _ l)). apply in_or_app. left. exact H. Qed.
Lemma part_nth {B} (l : list B) x w i : 0 <= x -> 0 <= i < w -> nth_error (part x w l) (Z.to_nat i) = nth_error l (Z.to_nat (i + x)).
Proof.
  intros Hx Hi. unfold part. assert (E : forall (m : list B) n k, (k < n)%nat -> nth_error (firstn n m) k = nth_error m k).
  { induction m as [|y m IH]; intros [|n] [|k] H; try lia; try reflexivity; cbn [firstn nth_error]. apply IH. lia. }
  rewrite E by lia. clear E. replace (Z.to_nat (i + x)) with (Z.to_nat x + Z.to_nat i)%nat by lia. generalize (Z.to_nat i) as k. generalize (Z.to_nat x) as n. clear.
  induction l as [|y l IH]; intros [|n] k; try reflexivity; cbn [skipn nth_error Nat.add]; [destruct k; reflexivity|apply IH].
Qed.
Lemma rect_rect rows x w y h x' w' y' h' : 0 <= x -> 0 <= y -> 0 <= x' -> 0 <= y' -> 0 <= w' -> 0 <= h' -> x' + w' <= w -> y' + h' <= h ->
  rectangle x' w' y' h' (rectangle x w y h rows) = rectangle (x' + x) w' (y' + y) h' rows.
Proof.
  intros. unfold rectangle. rewrite part_map, map_map, part_part by lia. apply map_ext. intros r. apply part_part; lia.
Qed.
Lemma rect_all rows inner : array inner rows -> rectangle 0 inner 0 (zlen rows) rows = rows.
Proof.
  intros H. unfold rectangle. rewrite part_all. induction H as [|r rows E H IH]; [reflexivity|]. cbn [map]. rewrite IH. f_equal. rewrite <- E. apply part_all.
Qed.
Definition region inner rows (s : slice2d) (v : list (list A)) : Prop :=
  inner_len s = inner /\ 0 <= xstart s /\ 0 <= xlen s /\ xstart s + xlen s <= inner /\ 0 <= ystart s /\ 0 <= ylen s /\ ystart s + ylen s <= zlen rows /\
  v = rectangle (xstart s) (xlen s) (ystart s) (ylen s) rows.
Lemma slice_ok inner rows s v x xl y yl : region inner rows s v -> within (xlen s) (ylen s) (x, xl, y, yl) ->
  exists s', slice s x xl y yl = Ok s' /\ xlen s' = width xl (xlen s) /\ ylen s' = width yl (ylen s) /\
    region inner rows s' (rectangle x (width xl (xlen s)) y (width yl (ylen s)) v).
Proof.
  intros (R1 & R2 & R3 & R4 & R5 & R6 & R7 & R8) (W1 & W2 & W3 & W4 & W5 & W6). unfold slice.
  replace (negb ((0 <=? y) && (y <? ylen s) && (0 <=? x) && (x <? xlen s))) with false by lia. eexists. split; [reflexivity|]. split; [reflexivity|]. split; [reflexivity|].
  change (effective xl (xlen s)) with (width xl (xlen s)). change (effective yl (ylen s)) with (width yl (ylen s)). set (w := width xl (xlen s)) in *. set (h := width yl (ylen s)) in *.
  repeat split; cbn [inner_len xstart xlen ystart ylen]; try lia. rewrite R8. apply rect_rect; lia.
Qed.
Lemma slices_ok inner rows : forall qs s v v' w' h', region inner rows s v -> chain (xlen s) (ylen s) v qs v' w' h' ->
  exists s', slices s qs = Ok s' /\ region inner rows s' v' /\ xlen s' = w' /\ ylen s' = h'.
Proof.
  induction qs as [|[[[x xl] y] yl] qs IH]; intros s v v' w' h' R C; cbn [chain slices] in *.
  - destruct C as (-> & -> & ->). exists s. auto.
  - destruct C as [W C]. destruct (slice_ok inner rows s v x xl y yl R W) as (s1 & -> & E1 & E2 & R1). cbn [bind]. rewrite <- E1, <- E2 in C. rewrite <- E1, <- E2 in R1. exact (IH s1 _ _ _ _ R1 C).
Qed.
Lemma make_ok inner rows x xl y yl : array inner rows -> within inner (zlen rows) (x, xl, y, yl) ->
  region inner rows (make inner (zlen rows) x xl y yl) (rectangle x (width xl inner) y (width yl (zlen rows)) rows).
Proof.
  intros _ (W1 & W2 & W3 & W4 & W5 & W6). unfold make. change (effective xl inner) with (width xl inner). change (effective yl (zlen rows)) with (width yl (zlen rows)).
  set (w := width xl inner) in *. set (h := width yl (zlen rows)) in *. repeat split; cbn [inner_len xstart xlen ystart ylen]; try lia.
Qed.
(** *** The memory *)
Lemma concat_at inner : forall rows y r, array inner rows -> nth_error rows y = Some r -> exists a b, concat rows = a ++ r ++ b /\ zlen a = inner * Z.of_nat y.
Proof.
  induction rows as [|r0 rows IH]; intros y r H E; [destruct y; discriminate|]. inversion H as [|? ? H1 H2]; subst. destruct y as [|y]; cbn [nth_error] in E.
  - injection E as ->. exists [], (concat rows). split; [reflexivity|]. rewrite zlen_nil. lia.
  - destruct (IH y r H2 E) as (a & b & Ea & La). exists (r0 ++ a), b. cbn [concat]. rewrite Ea, <- app_assoc. split; [reflexivity|]. rewrite zlen_app, La. lia.
Qed.
Lemma row_at inner rows y r x w : array inner rows -> 0 <= y -> nth_error rows (Z.to_nat y) = Some r -> 0 <= x -> 0 <= w -> x + w <= inner ->
  inner * y + x + w <= zlen (concat rows) /\ part (inner * y + x) w (concat rows) = part x w r.
Proof.
  intros H Hy E Hx Hw Hi. destruct (concat_at inner rows _ r H E) as (a & b & -> & La). rewrite Z2Nat.id in La by lia.
  assert (Lr : zlen r = inner) by (apply (proj1 (Forall_forall _ rows) H); eapply nth_error_In; eauto). rewrite !zlen_app. pose proof (zlen_nonneg b). split; [lia|].
  pose proof (zlen_nonneg a). unfold part. replace (Z.to_nat (inner * y + x)) with (length a + Z.to_nat x)%nat by (unfold zlen in *; lia).
  rewrite <- skip_skip. rewrite skipn_app, skipn_all, Nat.sub_diag. cbn [app skipn]. rewrite skipn_app, firstn_app.
  replace (Z.to_nat w - length (skipn (Z.to_nat x) r))%nat with O by (rewrite skipn_length; unfold zlen in *; lia). cbn [firstn]. apply app_nil_r.
Qed.
Lemma region_row inner rows s v y : array inner rows -> region inner rows s v -> 0 <= y < ylen s ->
  exists r0, nth_error rows (Z.to_nat (y + ystart s)) = Some r0 /\ nth_error v (Z.to_nat y) = Some (part (xstart s) (xlen s) r0).
Proof.
  intros H (R1 & R2 & R3 & R4 & R5 & R6 & R7 & R8) Hy. destruct (nth_error rows (Z.to_nat (y + ystart s))) as [r0|] eqn:E.
  - exists r0. split; [reflexivity|]. rewrite R8. unfold rectangle. rewrite nth_error_map, part_nth by lia. rewrite E. reflexivity.
  - apply nth_error_None in E. unfold zlen in *. lia.
Qed.
Lemma get_row_ok inner rows s v y : array inner rows -> region inner rows s v -> 0 <= y < ylen s ->
  exists r, nth_error v (Z.to_nat y) = Some r /\ zlen r = xlen s /\ get_row (concat rows) s y = Ok r.
Proof.
  intros H R Hy. destruct (region_row inner rows s v y H R Hy) as (r0 & E0 & Ev). destruct R as (R1 & R2 & R3 & R4 & R5 & R6 & R7 & R8). eexists. split; [exact Ev|].
  assert (Lr : zlen r0 = inner) by (apply (proj1 (Forall_forall _ rows) H); eapply nth_error_In; eauto). split; [apply part_len; lia|].
  destruct (row_at inner rows (y + ystart s) r0 (xstart s) (xlen s) H ltac:(lia) E0 R2 R3 R4) as [L P]. unfold get_row. replace (negb ((0 <=? y) && (y <? ylen s))) with false by lia.
  rewrite R1. cbv zeta. pose proof (Z.mul_nonneg_nonneg inner (y + ystart s) ltac:(lia) ltac:(lia)).
  replace ((0 <=? inner * (y + ystart s) + xstart s) && (0 <=? xlen s) && (inner * (y + ystart s) + xstart s + xlen s <=? zlen (concat rows))) with true by lia.
  f_equal. exact P.
Qed.
Lemma cell_ok inner rows s v x y : array inner rows -> region inner rows s v -> 0 <= y < ylen s -> 0 <= x < xlen s ->
  exists a c b, cell v x y = Some c /\ cell rows (x + xstart s) (y + ystart s) = Some c /\ concat rows = a ++ c :: b /\ get_xy_ref s x y = Ok (zlen a).
Proof.
  intros H R Hy Hx. destruct (region_row inner rows s v y H R Hy) as (r0 & E0 & Ev). destruct R as (R1 & R2 & R3 & R4 & R5 & R6 & R7 & R8).
  assert (Lr : zlen r0 = inner) by (apply (proj1 (Forall_forall _ rows) H); eapply nth_error_In; eauto).
  destruct (nth_error r0 (Z.to_nat (x + xstart s))) as [c|] eqn:Ec; [|apply nth_error_None in Ec; unfold zlen in *; lia].
  destruct (concat_at inner rows _ r0 H E0) as (a & b & Ea & La). destruct (nth_error_split _ _ Ec) as (l1 & l2 & El & Ll).
  exists (a ++ l1), c, (l2 ++ b). unfold cell. rewrite Ev, E0, part_nth by lia. split; [exact Ec|]. split; [exact Ec|]. split; [rewrite Ea, El, <- !app_assoc; reflexivity|].
  unfold get_xy_ref. replace (negb ((0 <=? y) && (y <? ylen s) && (0 <=? x) && (x <? xlen s))) with false by lia. f_equal. rewrite Z2Nat.id in La by lia.
  rewrite R1, zlen_app, La. unfold zlen. rewrite Ll. rewrite Z2Nat.id by lia. lia.
Qed.
Lemma each_ok inner rows s v : array inner rows -> region inner rows s v -> forall n y, Z.of_nat n + y = ylen s -> 0 <= y ->
  each_from (concat rows) s n y = Ok (numbered y (skipn (Z.to_nat y) v)).
Proof.
  intros H R. assert (Lv : length v = Z.to_nat (ylen s)).
  { destruct R as (R1 & R2 & R3 & R4 & R5 & R6 & R7 & ->). unfold rectangle. rewrite map_length. pose proof (part_len rows (ystart s) (ylen s) R5 R6 R7) as L. unfold zlen in L. lia. }
  induction n as [|n IH]; intros y Hn Hy; cbn [each_from].
  - rewrite skipn_all2 by lia. reflexivity.
  - destruct (get_row_ok inner rows s v y H R ltac:(lia)) as (r & Er & _ & ->). cbn [bind]. rewrite (IH (y + 1)) by lia. cbn [bind]. f_equal.
    assert (E : skipn (Z.to_nat y) v = r :: skipn (Z.to_nat (y + 1)) v).
    { replace (Z.to_nat (y + 1)) with (S (Z.to_nat y)) by lia. clear -Er. revert Er. generalize (Z.to_nat y) as k. induction v as [|z v IH]; intros [|k] E; try discriminate; cbn in *; [injection E as ->; reflexivity|]. apply IH. exact E. }
    rewrite E. reflexivity.
Qed.
Lemma get_set_same (m m' : list A) i c : set m i c = Ok m' -> get m' i = Ok c /\ zlen m' = zlen m /\ forall j, j <> i -> get m' j = get m j.
Proof.
  unfold set. destruct ((0 <=? i) && (i <? zlen m)) eqn:T; [|discriminate]. intros [= <-]. unfold get, zlen. rewrite upd_length.
  assert (X : forall (l : list A) n, (n < length l)%nat -> nth_error (upd l n c) n = Some c) by (induction l as [|y l IH]; intros [|n] L; cbn in *; try lia; [reflexivity|apply IH; lia]).
  assert (Y : forall (l : list A) n k, n <> k -> nth_error (upd l n c) k = nth_error l k) by (induction l as [|y l IH]; intros [|n] [|k] L; cbn in *; try congruence; apply IH; congruence).
  split; [replace (i <? 0) with false by lia; rewrite X by (unfold zlen in T; lia); reflexivity|]. split; [reflexivity|]. intros j Hj.
  destruct (Z.ltb_spec j 0); [reflexivity|]. rewrite Y by lia. reflexivity.
Qed.
Lemma ref_inj inner rows s v x y x' y' i : region inner rows s v -> get_xy_ref s x y = Ok i -> get_xy_ref s x' y' = Ok i -> x = x' /\ y = y'.
Proof.
  intros (R1 & R2 & R3 & R4 & R5 & R6 & R7 & R8). unfold get_xy_ref. destruct ((0 <=? y) && (y <? ylen s) && (0 <=? x) && (x <? xlen s)) eqn:T; cbn [negb]; [|discriminate].
  destruct ((0 <=? y') && (y' <? ylen s) && (0 <=? x') && (x' <? xlen s)) eqn:T'; cbn [negb]; [|discriminate]. intros [= <-] [= E]. rewrite R1 in E.
  assert (y + ystart s = y' + ystart s) by (clear -T T' E R2 R3 R4; nia). assert (y = y') by lia. subst y'. split; lia.
Qed.
End P.
