(** How far two names are apart: the proofs. *)
From Coq Require Import ZArith List Bool Lia ZifyBool.
From Verif Require Import Mach NameModel DistModel DistSpec.
Import ListNotations.
Open Scope Z_scope.

Lemma put_same s i j v : put s i j v i j = v. Proof. unfold put. rewrite !Z.eqb_refl. reflexivity. Qed.
Lemma put_other s i j v x y : x <> i \/ y <> j -> put s i j v x y = s x y.
Proof. intro H. unfold put. destruct ((x =? i) && (y =? j)) eqn:E; [lia | reflexivity]. Qed.
Lemma first_column_val n s x : 0 <= x <= Z.of_nat n -> first_column n s x 0 = x.
Proof.
  induction n as [|n IH]; intro H; cbn [first_column].
  - assert (x = 0) by lia. subst. apply put_same.
  - destruct (Z.eq_dec x (Z.of_nat (S n))) as [->|N]; [apply put_same|]. rewrite put_other by lia. apply IH. lia.
Qed.
Lemma first_row_val n s y : 0 <= y <= Z.of_nat n -> first_row n s 0 y = y.
Proof.
  induction n as [|n IH]; intro H; cbn [first_row].
  - assert (y = 0) by lia. subst. apply put_same.
  - destruct (Z.eq_dec y (Z.of_nat (S n))) as [->|N]; [apply put_same|]. rewrite put_other by lia. apply IH. lia.
Qed.
Lemma first_row_rest n s x y : x <> 0 -> first_row n s x y = s x y.
Proof. intro H. induction n as [|n IH]; cbn [first_row]; rewrite put_other by lia; [reflexivity | exact IH]. Qed.
Lemma get_ok (l : list Z) i : 0 <= i < zlen l -> exists v, get l i = Ok v /\ nth_error l (Z.to_nat i) = Some v.
Proof.
  intros H. unfold get, zlen in *. destruct (nth_error l (Z.to_nat i)) as [v|] eqn:E; [|apply nth_error_None in E; lia].
  exists v. split; [|reflexivity]. replace (i <? 0) with false by lia. try rewrite E. reflexivity.
Qed.
Lemma get_past (l : list Z) i : zlen l <= i -> get l i = Oob.
Proof. intros H. unfold get, zlen in *. destruct (i <? 0); [reflexivity|]. destruct (nth_error l (Z.to_nat i)) as [v|] eqn:E; [|reflexivity]. assert (N : nth_error l (Z.to_nat i) <> None) by congruence. apply nth_error_Some in N. lia. Qed.

Section Two.
Variables (a b : text).
Local Notation la := (Z.of_nat (length a)).
Local Notation lb := (Z.of_nat (length b)).
Definition good (s : grid) (x y : Z) : Prop :=
  Z.abs (x - y) <= s x y <= Z.max x y /\ (s x y = 0 <-> x = y /\ firstn (Z.to_nat x) a = firstn (Z.to_nat y) b).
Lemma firstn_snoc (l : list Z) n v : nth_error l n = Some v -> firstn (S n) l = firstn n l ++ [v].
Proof. revert n; induction l as [|c l IH]; intros [|n] H; cbn in H; try discriminate; [injection H as ->; reflexivity|]. cbn [firstn app]. f_equal. apply IH, H. Qed.
Lemma zero_len (l : text) : zlen (l ++ [0]) = Z.of_nat (length l) + 1.
Proof. unfold zlen. rewrite app_length. cbn. lia. Qed.
Lemma cell_spec i j s : 0 <= i < la -> 0 <= j < lb -> i <= lb -> good s i j -> good s i (j + 1) -> good s (i + 1) j -> (0 < i -> 0 < j -> good s (i - 1) (j - 1)) ->
  exists s', cell (a ++ [0]) (b ++ [0]) i j s = Ok s' /\ good s' (i + 1) (j + 1) /\ forall x y, x <> i + 1 \/ y <> j + 1 -> s' x y = s x y.
Proof.
  intros Hi Hj Hb G00 G01 G10 Gt.  unfold cell.
  destruct (get_ok (a ++ [0]) i ltac:(rewrite zero_len; lia)) as (ai & Eai & Nai). destruct (get_ok (b ++ [0]) i ltac:(rewrite zero_len; lia)) as (bi & Ebi & Nbi).
  rewrite Eai, Ebi. cbn [bind]. cbv zeta.
  set (v := if (if s i (j + 1) + 1 <? s (i + 1) j + 1 then s i (j + 1) + 1 else s (i + 1) j + 1) <? s i j + (if ai =? bi then 0 else 1)
            then if s i (j + 1) + 1 <? s (i + 1) j + 1 then s i (j + 1) + 1 else s (i + 1) j + 1 else s i j + (if ai =? bi then 0 else 1)).
  assert (Z0 : s i j + (if ai =? bi then 0 else 1) = 0 <-> i + 1 = j + 1 /\ firstn (Z.to_nat (i + 1)) a = firstn (Z.to_nat (j + 1)) b).
  { rewrite nth_error_app1 in Nai by lia. destruct G00 as [R Z0]. split.
    - intro H. destruct (ai =? bi) eqn:Q; [|lia]. apply Z.eqb_eq in Q. subst bi. assert (S0 : s i j = 0) by lia. apply Z0 in S0. destruct S0 as [-> S0]. split; [reflexivity|].
      rewrite nth_error_app1 in Nbi by lia. replace (Z.to_nat (j + 1)) with (S (Z.to_nat j)) by lia. rewrite (firstn_snoc a _ ai Nai), (firstn_snoc b _ ai Nbi), S0. reflexivity.
    - intros [E F]. assert (i = j) by lia. subst j. rewrite nth_error_app1 in Nbi by lia. replace (Z.to_nat (i + 1)) with (S (Z.to_nat i)) in F by lia.
      rewrite (firstn_snoc a _ ai Nai), (firstn_snoc b _ bi Nbi) in F. apply app_inj_tail in F. destruct F as [F ->]. rewrite Z.eqb_refl. assert (s i i = 0) by (apply Z0; split; [reflexivity | exact F]). lia. }
  destruct G00 as [R00 _], G01 as [R01 _], G10 as [R10 _].
  assert (Gv : forall t : grid, t (i + 1) (j + 1) = v -> good t (i + 1) (j + 1)).
  { intros t Et. unfold good. rewrite Et. split.
    - unfold v. destruct (ai =? bi), (s i (j + 1) + 1 <? s (i + 1) j + 1) eqn:C1; (match goal with |- context [if ?c then _ else _] => destruct c eqn:C2 end); lia.
    - rewrite <- Z0. unfold v. destruct (ai =? bi), (s i (j + 1) + 1 <? s (i + 1) j + 1) eqn:C1; (match goal with |- context [if ?c then _ else _] => destruct c eqn:C2 end); lia. }
  assert (Keep : exists s', Ok (put s (i + 1) (j + 1) v) = Ok s' /\ good s' (i + 1) (j + 1) /\ forall x y, x <> i + 1 \/ y <> j + 1 -> s' x y = s x y).
  { exists (put s (i + 1) (j + 1) v). split; [reflexivity|]. split; [apply Gv, put_same | intros; apply put_other; assumption]. }
  destruct ((0 <? i) && (0 <? j)) eqn:P; [|exact Keep].
  destruct (get_ok (b ++ [0]) (j - 1) ltac:(rewrite zero_len; lia)) as (bp & Ebp & _). rewrite Ebp. cbn [bind]. destruct (ai =? bp); [|exact Keep].
  destruct (get_ok (a ++ [0]) (i - 1) ltac:(rewrite zero_len; lia)) as (ap & Eap & _). destruct (get_ok (b ++ [0]) j ltac:(rewrite zero_len; lia)) as (bj & Ebj & _). rewrite Eap, Ebj. cbn [bind].
  destruct (ap =? bj); [|exact Keep]. rewrite put_same, put_other by lia. destruct (s (i - 1) (j - 1) + 1 <? v) eqn:C; [|exact Keep].
  destruct (Gt ltac:(lia) ltac:(lia)) as [Rt _].
  eexists. split; [reflexivity|]. split.
  - unfold good. rewrite put_same. destruct (Gv _ (put_same s (i + 1) (j + 1) v)) as [Rv Zv]. rewrite put_same in Rv, Zv. split; [lia|]. rewrite <- Zv. lia.
  - intros x y H. rewrite put_other by exact H. apply put_other. exact H.
Qed.
Lemma good_ext s s' x y : s' x y = s x y -> good s x y -> good s' x y.
Proof. unfold good. intros ->. tauto. Qed.
Lemma inner_spec i : 0 <= i < la -> i <= lb -> forall n j s, Z.of_nat n = lb - j -> 0 <= j ->
  (forall x y, 0 <= x <= i -> 0 <= y <= lb -> good s x y) -> (forall y, 0 <= y <= j -> good s (i + 1) y) -> (forall x, i + 1 < x <= la -> good s x 0) ->
  exists s', inner n (a ++ [0]) (b ++ [0]) i j s = Ok s' /\ (forall x y, 0 <= x <= i + 1 -> 0 <= y <= lb -> good s' x y) /\ (forall x, i + 1 < x <= la -> good s' x 0).
Proof.
  intros Hi Hb. induction n as [|n IH]; intros j s En Hj G Gr Gc; cbn [inner].
  - exists s. split; [reflexivity|]. split; [|exact Gc]. intros x y Hx Hy. destruct (Z.eq_dec x (i + 1)) as [->|N]; [apply Gr; lia | apply G; lia].
  - destruct (cell_spec i j s Hi ltac:(lia) Hb (G i j ltac:(lia) ltac:(lia)) (G i (j + 1) ltac:(lia) ltac:(lia)) (Gr j ltac:(lia)) ltac:(intros; apply G; lia)) as (s1 & E1 & G1 & K1).
    rewrite E1. cbn [bind]. apply IH; [lia | lia | | |].
    + intros x y Hx Hy. apply (good_ext s); [apply K1; lia | apply G; assumption].
    + intros y Hy. destruct (Z.eq_dec y (j + 1)) as [->|N]; [exact G1|]. apply (good_ext s); [apply K1; lia | apply Gr; lia].
    + intros x Hx. apply (good_ext s); [apply K1; lia | apply Gc; assumption].
Qed.
Lemma outer_spec : la <= lb + 1 -> forall n i s, Z.of_nat n = la - i -> 0 <= i ->
  (forall x y, 0 <= x <= i -> 0 <= y <= lb -> good s x y) -> (forall x, i < x <= la -> good s x 0) ->
  exists s', outer n (a ++ [0]) (b ++ [0]) (length b) i s = Ok s' /\ forall x y, 0 <= x <= la -> 0 <= y <= lb -> good s' x y.
Proof.
  intro HL. induction n as [|n IH]; intros i s En Hi G Gc; cbn [outer].
  - exists s. split; [reflexivity|]. intros x y Hx Hy. apply G; lia.
  - destruct (inner_spec i ltac:(lia) ltac:(lia) (length b) 0 s ltac:(lia) ltac:(lia) G) as (s1 & E1 & G1 & C1).
    + intros y Hy. assert (y = 0) by lia. subst. apply Gc. lia.
    + intros x Hx. apply Gc. lia.
    + rewrite E1. cbn [bind]. apply IH; [lia | lia | exact G1 | exact C1].
Qed.
Lemma start_good junk x y : 0 <= x <= la -> 0 <= y <= lb -> x = 0 \/ y = 0 -> good (first_row (length b) (first_column (length a) junk)) x y.
Proof.
  intros Hx Hy H.
  assert (V : first_row (length b) (first_column (length a) junk) x y = x + y).
  { destruct (Z.eq_dec x 0) as [->|N]; [rewrite first_row_val by (lia); lia|]. assert (y = 0) by lia. subst y. rewrite first_row_rest by exact N. rewrite first_column_val by (lia). lia. }
  unfold good. rewrite V. split; [lia|]. split.
  - intro E. assert (x = 0) by lia. assert (y = 0) by lia. subst. split; reflexivity.
  - intros [-> _]. lia.
Qed.
Lemma distance_ok junk : la < 256 -> lb < 256 -> la <= lb + 1 \/ lb = 0 ->
  exists d, distance junk a b = Ok d /\ Z.abs (la - lb) <= d <= Z.max la lb /\ (d = 0 <-> a = b).
Proof.
  intros Ha Hb HL. unfold distance. cbv zeta.
  destruct (la =? 0) eqn:A0. { exists lb. split; [reflexivity|]. split; [lia|]. assert (a = []) by (destruct a; [reflexivity | cbn in A0; lia]).  destruct b; subst; cbn in *; split; try congruence; lia. }
  destruct (lb =? 0) eqn:B0. { exists la. split; [reflexivity|]. split; [lia|]. assert (b = []) by (destruct b; [reflexivity | cbn in B0; lia]). subst b. split; [lia|]. intros ->.  cbn in A0. lia. }
  replace ((256 <=? la) || (256 <=? lb)) with false by lia.
  destruct (outer_spec ltac:(lia) (length a) 0 (first_row (length b) (first_column (length a) junk)) ltac:(lia) ltac:(lia)) as (s & E & G).
  - intros x y Hx Hy. apply start_good; lia.
  - intros x Hx. apply start_good; lia.
  - rewrite E. cbn [bind]. exists (s la lb). split; [reflexivity|]. destruct (G la lb ltac:(lia) ltac:(lia)) as [R Z0]. split; [exact R|]. rewrite Z0.  rewrite !Nat2Z.id, !firstn_all. split; [tauto|].
    intros ->. split; reflexivity.
Qed.
Lemma inner_past i n j s : (0 < n)%nat -> lb < i -> inner n (a ++ [0]) (b ++ [0]) i j s = Oob.
Proof.
  intros Hn Hi. destruct n; [lia|]. cbn [inner]. unfold cell. rewrite (get_past (b ++ [0]) i) by (rewrite zero_len; lia).
  unfold get. destruct (i <? 0); [reflexivity|]. destruct (nth_error (a ++ [0]) (Z.to_nat i)); reflexivity.
Qed.
Lemma outer_past : 0 < lb -> forall n i s, Z.of_nat n = la - i -> 0 <= i -> (forall x y, 0 <= x <= i -> 0 <= y <= lb -> good s x y) -> (forall x, i < x <= la -> good s x 0) -> lb + 1 < la -> i <= lb + 1 ->
  outer n (a ++ [0]) (b ++ [0]) (length b) i s = Oob.
Proof.
  intro HB. induction n as [|n IH]; intros i s En Hi G Gc HL Hib; [lia|]. cbn [outer]. destruct (Z.eq_dec i (lb + 1)) as [->|N].
  - rewrite inner_past by (lia). reflexivity.
  - destruct (inner_spec i ltac:(lia) ltac:(lia) (length b) 0 s ltac:(lia) ltac:(lia) G) as (s1 & E1 & G1 & C1).
    + intros y Hy. assert (y = 0) by lia. subst. apply Gc. lia.
    + intros x Hx. apply Gc. lia.
    + rewrite E1. cbn [bind]. apply IH; try lia; assumption.
Qed.
Lemma distance_past junk : 0 < lb -> lb + 1 < la -> la < 256 -> distance junk a b = Oob.
Proof.
  intros HB HL Ha. unfold distance. cbv zeta. replace (la =? 0) with false by lia. replace (lb =? 0) with false by lia. replace ((256 <=? la) || (256 <=? lb)) with false by lia.
  rewrite (outer_past HB); [reflexivity | lia | lia | | | exact HL | lia].
  - intros x y Hx Hy. apply start_good; lia.
  - intros x Hx. apply start_good; lia.
Qed.
End Two.
