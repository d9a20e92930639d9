(** C175: views of two-dimensional arrays. *)
From Coq Require Import ZArith Bool List Lia ZifyBool.
From Verif Require Import Mach Sl2Model Sl2Spec Sl2Proofs.
Import ListNotations.
Local Open Scope Z_scope.

(** C175: a Slice2d made of an array and sliced again any number of times, each time within what it has, shows the rectangle asked for:
    its length, count, rows, cells and @each are those of the rectangle, and reads stay inside of the array.
    Missing: requests that reach beyond, which are not checked (below). *)
Theorem C175_view_partial : forall A (rows : list (list A)) inner x xl y yl qs v w h, array inner rows -> within inner (zlen rows) (x, xl, y, yl) ->
  chain (width xl inner) (width yl (zlen rows)) (rectangle x (width xl inner) y (width yl (zlen rows)) rows) qs v w h ->
  exists s, slices (make inner (zlen rows) x xl y yl) qs = Ok s /\ len s = h /\ count s = h * w /\
    (forall j, 0 <= j < h -> exists r, nth_error v (Z.to_nat j) = Some r /\ zlen r = w /\ get_row (concat rows) s j = Ok r) /\
    (forall i j, 0 <= i < w -> 0 <= j < h -> exists c, cell v i j = Some c /\ get_xy (concat rows) s i j = Ok c) /\
    each (concat rows) s = Ok (numbered 0 v).
Proof.
  intros A rows inner x xl y yl qs v w h H W C. pose proof (make_ok inner rows x xl y yl H W) as R.
  destruct (slices_ok inner rows qs (make inner (zlen rows) x xl y yl) _ v w h R C) as (s & E & Rs & <- & <-).
  exists s. split; [exact E|]. split; [reflexivity|]. split; [reflexivity|]. split; [|split].
  - intros j Hj. exact (get_row_ok inner rows s v j H Rs Hj).
  - intros i j Hi Hj. destruct (cell_ok inner rows s v i j H Rs Hj Hi) as (a & c & b & E1 & _ & E2 & E3). exists c. split; [exact E1|]. unfold get_xy. rewrite E3, E2. cbn [bind]. apply get_app. reflexivity.
  - unfold each. assert (Y : 0 <= ylen s) by (apply Rs). rewrite (each_ok inner rows s v H Rs (Z.to_nat (ylen s)) 0) by lia. reflexivity.
Qed.
Example C175_ex : let rows := [[1; 2; 3; 4]; [5; 6; 7; 8]; [9; 10; 11; 12]] in array 4 rows /\ within 4 (zlen rows) (1, 3, 0, 0) /\
  chain 3 3 (rectangle 1 3 0 3 rows) [(0, -1, 1, 2)] [[6; 7]; [10; 11]] 2 2.
Proof. cbv zeta. split; [repeat constructor|]. split; [unfold within, width, zlen; cbn; lia|]. cbn [chain]. split; [unfold within, width; cbn; lia|]. repeat split. Qed.
Print Assumptions C175_view_partial.

(** Writing a cell of the view changes this cell of the array and nothing else. *)
Theorem C175_set : forall A (rows : list (list A)) inner x xl y yl qs v w h i j c, array inner rows -> within inner (zlen rows) (x, xl, y, yl) ->
  chain (width xl inner) (width yl (zlen rows)) (rectangle x (width xl inner) y (width yl (zlen rows)) rows) qs v w h -> 0 <= i < w -> 0 <= j < h ->
  exists s m', slices (make inner (zlen rows) x xl y yl) qs = Ok s /\ set_xy (concat rows) s i j c = Ok m' /\ zlen m' = zlen (concat rows) /\
    (forall i' j', 0 <= i' < w -> 0 <= j' < h -> get_xy m' s i' j' = if (i' =? i) && (j' =? j) then Ok c else get_xy (concat rows) s i' j') /\
    exists k, forall k', k' <> k -> get m' k' = get (concat rows) k'.
Proof.
  intros A rows inner x xl y yl qs v w h i j c H W C Hi Hj. pose proof (make_ok inner rows x xl y yl H W) as R.
  destruct (slices_ok inner rows qs (make inner (zlen rows) x xl y yl) _ v w h R C) as (s & E & Rs & <- & <-).
  destruct (cell_ok inner rows s v i j H Rs Hj Hi) as (a & c0 & b & _ & _ & E2 & E3).
  assert (S1 : set (concat rows) (zlen a) c = Ok (a ++ c :: b)) by (rewrite E2; apply set_app; reflexivity). destruct (get_set_same _ _ _ _ S1) as (G1 & G2 & G3).
  exists s, (a ++ c :: b). split; [exact E|]. split; [unfold set_xy; rewrite E3; cbn [bind]; exact S1|]. split; [exact G2|]. split.
  - intros i' j' Hi' Hj'. destruct (cell_ok inner rows s v i' j' H Rs Hj' Hi') as (a' & c' & b' & _ & _ & _ & E3'). unfold get_xy. rewrite E3'. cbn [bind].
    destruct ((i' =? i) && (j' =? j)) eqn:T.
    + assert (i' = i) by lia. assert (j' = j) by lia. subst. rewrite E3 in E3'. injection E3' as <-. exact G1.
    + apply G3. intros X. rewrite X in E3'. destruct (ref_inj inner rows s v i j i' j' _ Rs E3 E3') as [-> ->]. rewrite !Z.eqb_refl in T. discriminate.
  - exists (zlen a). exact G3.
Qed.
Print Assumptions C175_set.

(** The default length is that of the whole array whatever the start: a view of two rows of three from column 1 claims three columns, shows the start of the second row at the end of the first,
    and its last cell is outside of the array; slicing again checks the start only. *)
Theorem C175_default_refuted : let m := [1; 2; 3; 4; 5; 6] in let s := make 3 2 1 0 0 0 in
  xlen s = 3 /\ get_row m s 0 = Ok [2; 3; 4] /\ get_xy m s 2 1 = Oob /\
  exists s', slice (make 3 2 0 0 0 0) 2 0 0 0 = Ok s' /\ get_row m s' 0 = Ok [3; 4; 5] /\ get_xy m s' 2 1 = Oob.
Proof. cbv zeta. repeat (split; [vm_compute; reflexivity|]). eexists. repeat split; vm_compute; reflexivity. Qed.
Print Assumptions C175_default_refuted.
