(** Proofs about ranges. *)
From Coq Require Import ZArith Bool List Lia ZifyBool.
From Verif Require Import Mach RangeModel RangeSpec.
Import ListNotations.
Local Open Scope Z_scope.

Lemma get_value : forall t s i, value t s -> value t (s + i) -> 0 <= i < 2 ^ 64 -> cast t (cast usz (cast usz s + cast usz i)) = s + i.
Proof.
  intros [[] b] s i [B S] [_ T] I; unfold cast, usz in *; rewrite <- Z.add_mod by lia;
  cbn [In] in B; destruct B as [B | [B | [B | [B | []]]]]; subst; cbn in *; Z.div_mod_to_equations; lia.
Qed.
Lemma value_between : forall t a b v, value t a -> value t b -> a <= v <= b -> value t v.
Proof. intros [[] w] a b v [B A] [_ C] V; split; try exact B; lia. Qed.
(** What the length is, whatever the ends. *)
Lemma ex_len_is : forall t r, value t (start r) -> value t (end_ r) -> start r <= end_ r ->
  ex_len t r = end_ r - start r + (if match t with Int true 32 => 2 ^ 31 <=? end_ r - start r | _ => false end then 2 ^ 64 - 2 ^ 32 else 0).
Proof.
  intros [[] b] [s e] [B S] [_ T] L; cbn [start end_] in *; unfold ex_len, promoted, cast, usz; cbn [start end_];
  destruct (Z.ltb_spec e s); [lia| |lia|]; cbn [In] in B; destruct B as [B | [B | [B | [B | []]]]]; subst; cbn in *;
  try match goal with |- context [if ?c then _ else _] => destruct c eqn:X end; Z.div_mod_to_equations; lia.
Qed.
Lemma len_ex : forall t r, start r <= end_ r -> len t r = (ex_len t r + 1) mod 2 ^ 64.
Proof. intros t [s e] L. unfold len, ex_len. cbn [start end_] in *. destruct (Z.ltb_spec e s); [lia|]. reflexivity. Qed.
Lemma far_spec : forall t d, match t with Int true 32 => 2 ^ 31 <=? d | _ => false end = true <-> too_far t d.
Proof.
  intros t d. unfold too_far. destruct t as [[] b].
  - destruct (Z.eq_dec b 32) as [-> | N]; [split; [intros H; split; [reflexivity | lia] | intros [_ H]; lia]|].
    split; [|intros [H _]; congruence]. intros H. exfalso.
    assert (G : forall b (x y : bool), b <> 32 -> match b with 32 => x | _ => y end = y).
    { clear. intros b x y N. destruct b as [|p|p]; try reflexivity. do 6 (try destruct p as [p|p|]; try reflexivity). contradiction. }
    rewrite G in H by exact N. discriminate.
  - split; [discriminate | intros [H _]; congruence].
Qed.
Lemma diff_bound : forall t a b, value t a -> value t b -> a - b < 2 ^ 64.
Proof. intros [[] w] a b [B A] [_ C]; cbn [In] in B; destruct B as [B | [B | [B | [B | []]]]]; subst; cbn in *; lia. Qed.
Lemma numbers_intro : forall t s e n hi mem f, value t s -> value t e -> hi <= e -> (hi = e \/ hi = e - 1) -> n = Z.max 0 (hi - s + 1) ->
  (forall v, mem v = (s <=? v) && (v <=? hi)) -> (forall i, 0 <= i < n -> f i = Ok (s + i)) -> (forall i, n <= i -> f i = Oob) -> numbers t s hi mem n f.
Proof.
  intros t s e n hi mem f S E H1 H2 N M F G. split; [exact N|]. split; [intros v _; rewrite M; lia|]. split; [|split; [|exact G]].
  - intros v V. rewrite M. split.
    + intros X. exists (v - s). split; [lia|]. rewrite F by lia. f_equal. lia.
    + intros (i & I & X). rewrite F in X by exact I. injection X as <-. lia.
  - intros i j I J K. exists (s + i), (s + j). rewrite !F by lia. repeat split. lia.
Qed.
Lemma ex_numbers : forall t r, value t (start r) -> value t (end_ r) -> ~ too_far t (end_ r - start r) ->
  numbers t (start r) (end_ r - 1) (ex_contains r) (ex_len t r) (ex_get t r).
Proof.
  intros t r S E F. assert (L : ex_len t r = Z.max 0 (end_ r - 1 - start r + 1)).
  { destruct (Z.le_gt_cases (start r) (end_ r)) as [X | X].
    - rewrite ex_len_is by assumption. destruct (match t with Int true 32 => _ | _ => _ end) eqn:Y; [apply far_spec in Y; contradiction|]. lia.
    - unfold ex_len. destruct (Z.ltb_spec (end_ r) (start r)); lia. }
  pose proof (diff_bound t _ _ E S) as D.
  apply (numbers_intro t (start r) (end_ r)); try assumption; try lia.
  - intros v. unfold ex_contains. lia.
  - intros i I. unfold ex_get. destruct (Z.ltb_spec i (ex_len t r)); [|lia]. f_equal.
    rewrite <- (get_value t (start r) i) by (try assumption; try (apply (value_between t (start r) (end_ r)); try assumption); lia).
    f_equal. f_equal. f_equal. unfold cast, usz. rewrite Z.mod_small; lia.
  - intros i I. unfold ex_get. destruct (Z.ltb_spec i (ex_len t r)); [lia|reflexivity].
Qed.
Lemma numbers_len : forall t r, value t (start r) -> value t (end_ r) -> ~ too_far t (end_ r - start r) -> end_ r - start r + 1 < 2 ^ 64 ->
  numbers t (start r) (end_ r) (contains r) (len t r) (get t r).
Proof.
  intros t r S E F D. assert (L : len t r = Z.max 0 (end_ r - start r + 1)).
  { destruct (Z.le_gt_cases (start r) (end_ r)) as [X | X].
    - rewrite len_ex, ex_len_is by assumption. destruct (match t with Int true 32 => _ | _ => _ end) eqn:Y; [apply far_spec in Y; contradiction|].
      rewrite Z.mod_small; lia.
    - unfold len. destruct (Z.ltb_spec (end_ r) (start r)); lia. }
  apply (numbers_intro t (start r) (end_ r)); try assumption; try lia.
  - intros v. unfold contains. lia.
  - intros i I. unfold get. destruct (Z.ltb_spec i (len t r)); [|lia]. f_equal.
    apply get_value; try assumption; try (apply (value_between t (start r) (end_ r)); try assumption); lia.
  - intros i I. unfold get. destruct (Z.ltb_spec i (len t r)); [lia|reflexivity].
Qed.
Lemma ex_len_wrong : forall t r, value t (start r) -> value t (end_ r) -> too_far t (end_ r - start r) -> ex_len t r = end_ r - start r + (2 ^ 64 - 2 ^ 32).
Proof. intros t r S E F. pose proof F as [_ G]. apply far_spec in F. rewrite ex_len_is by (try assumption; lia). rewrite F. reflexivity. Qed.
Lemma len_wrong : forall t r, value t (start r) -> value t (end_ r) -> too_far t (end_ r - start r) \/ 2 ^ 64 <= end_ r - start r + 1 -> len t r <> Z.max 0 (end_ r - start r + 1).
Proof.
  intros t r S E F. pose proof (diff_bound t _ _ E S) as D. destruct F as [F | F].
  - pose proof (ex_len_wrong t r S E F) as W. destruct F as [-> G]. rewrite len_ex, W by lia. cbn in S, E. Z.div_mod_to_equations; lia.
  - rewrite len_ex by lia. destruct (Z.le_gt_cases 0 ((ex_len t r + 1) mod 2 ^ 64)); pose proof (Z.mod_pos_bound (ex_len t r + 1) (2 ^ 64)); lia.
Qed.
