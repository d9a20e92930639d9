(** Outcomes and arrays shared by the models of array-manipulating code.
    An access outside an array is the distinct outcome [Oob] (C3 bounds check / C undefined
    behaviour); [Fuel] is the distinct outcome "the loop did not finish in the given number of steps". *)
From Coq Require Import ZArith Bool List Lia Permutation.
From Coq Require Import ZifyBool.
Import ListNotations.
Open Scope Z_scope.

Inductive Res (A : Type) : Type := Ok (a : A) | Oob | Fuel.
Arguments Ok {A} a.
Arguments Oob {A}.
Arguments Fuel {A}.

Definition bind {A B} (r : Res A) (k : A -> Res B) : Res B :=
  match r with Ok a => k a | Oob => Oob | Fuel => Fuel end.
Notation "x <- e ;; k" := (bind e (fun x => k)) (at level 61, e at next level, right associativity).
Notation "' p <- e ;; k" := (bind e (fun x => match x with p => k end)) (at level 61, p pattern, e at next level, right associativity).

Definition zlen {A} (l : list A) : Z := Z.of_nat (length l).
Definition get {A} (l : list A) (i : Z) : Res A :=
  if i <? 0 then Oob else match nth_error l (Z.to_nat i) with Some a => Ok a | None => Oob end.
Fixpoint upd {A} (l : list A) (n : nat) (x : A) : list A :=
  match l, n with
  | [], _ => []
  | _ :: r, O => x :: r
  | a :: r, S m => a :: upd r m x
  end.
Definition set {A} (l : list A) (i : Z) (x : A) : Res (list A) :=
  if (0 <=? i) && (i <? zlen l) then Ok (upd l (Z.to_nat i) x) else Oob.

(** ** Facts *)
Lemma zlen_nonneg {A} (l : list A) : 0 <= zlen l. Proof. unfold zlen; lia. Qed.
Lemma zlen_app {A} (a b : list A) : zlen (a ++ b) = zlen a + zlen b. Proof. unfold zlen; rewrite app_length; lia. Qed.
Lemma zlen_cons {A} x (b : list A) : zlen (x :: b) = 1 + zlen b. Proof. unfold zlen; cbn [length]; lia. Qed.
Lemma zlen_nil {A} : zlen (@nil A) = 0. Proof. reflexivity. Qed.
Lemma upd_length {A} (l : list A) : forall n x, length (upd l n x) = length l.
Proof. induction l; intros [|n] x; cbn; auto. Qed.
Lemma upd_app {A} (a b : list A) x y : upd (a ++ x :: b) (length a) y = a ++ y :: b.
Proof. induction a; cbn; congruence. Qed.
Lemma get_app {A} (a b : list A) x i : i = zlen a -> get (a ++ x :: b) i = Ok x.
Proof.
  intros ->. unfold get, zlen. destruct (Z.ltb_spec (Z.of_nat (length a)) 0); [lia|].
  rewrite Nat2Z.id, nth_error_app2, Nat.sub_diag by lia. reflexivity.
Qed.
Lemma set_app {A} (a b : list A) x y i : i = zlen a -> set (a ++ x :: b) i y = Ok (a ++ y :: b).
Proof.
  intros ->. unfold set. rewrite zlen_app, zlen_cons. pose proof (zlen_nonneg a). pose proof (zlen_nonneg b).
  replace ((0 <=? zlen a) && (zlen a <? zlen a + (1 + zlen b))) with true by lia.
  unfold zlen. rewrite Nat2Z.id, upd_app. reflexivity.
Qed.
Lemma set_zlen {A} (l l' : list A) i x : set l i x = Ok l' -> zlen l' = zlen l.
Proof. unfold set. destruct (_ && _); [|discriminate]. intros [= <-]. unfold zlen. rewrite upd_length. reflexivity. Qed.
Lemma get_ok {A} (l : list A) i : 0 <= i < zlen l -> exists x, get l i = Ok x.
Proof.
  intros H. unfold get. destruct (Z.ltb_spec i 0); [lia|].
  destruct (nth_error l (Z.to_nat i)) eqn:E; [eauto|]. apply nth_error_None in E. unfold zlen in H. lia.
Qed.
Lemma get_nth {A} (l : list A) i d : 0 <= i < zlen l -> get l i = Ok (nth (Z.to_nat i) l d).
Proof.
  intros H. unfold get. destruct (Z.ltb_spec i 0); [lia|].
  rewrite (nth_error_nth' l d); [reflexivity|]. unfold zlen in H. lia.
Qed.
Lemma get_inv {A} (l : list A) i x : get l i = Ok x -> 0 <= i < zlen l /\ nth_error l (Z.to_nat i) = Some x.
Proof.
  unfold get. destruct (Z.ltb_spec i 0); [discriminate|]. destruct (nth_error l (Z.to_nat i)) eqn:E; [|discriminate].
  intros [= <-]. split; [|reflexivity]. assert (nth_error l (Z.to_nat i) <> None) by congruence.
  apply nth_error_Some in H0. unfold zlen. lia.
Qed.
Lemma get_oob {A} (l : list A) i : i < 0 \/ zlen l <= i -> get l i = Oob.
Proof.
  intros H. unfold get. destruct (Z.ltb_spec i 0); [reflexivity|].
  destruct (nth_error l (Z.to_nat i)) eqn:E; [|reflexivity].
  assert (nth_error l (Z.to_nat i) <> None) by congruence. apply nth_error_Some in H1. unfold zlen in H. lia.
Qed.
(** A list split at an index. *)
Lemma split_at {A} (l : list A) i : 0 <= i < zlen l -> exists a x b, l = a ++ x :: b /\ zlen a = i.
Proof.
  intros H. destruct (nth_error l (Z.to_nat i)) as [x|] eqn:E.
  - apply nth_error_split in E. destruct E as (a & b & -> & Hl). exists a, x, b. split; [reflexivity|]. unfold zlen. lia.
  - apply nth_error_None in E. unfold zlen in H. lia.
Qed.
Lemma split_len {A} (l : list A) n : 0 <= n <= zlen l -> exists a b, l = a ++ b /\ zlen a = n.
Proof.
  intros H. exists (firstn (Z.to_nat n) l), (skipn (Z.to_nat n) l). split; [symmetry; apply firstn_skipn|].
  unfold zlen in *. rewrite firstn_length. lia.
Qed.
Lemma nth_error_upd {A} (l : list A) : forall n m x, nth_error (upd l n x) m =
   if (m =? n)%nat then (if (n <? length l)%nat then Some x else None) else nth_error l m.
Proof.
  induction l as [|a l IH]; intros n m x.
  - destruct n, m; try reflexivity. cbn. destruct (_ =? _)%nat; reflexivity.
  - destruct n as [|n], m as [|m]; cbn [upd nth_error]; try reflexivity.
    rewrite IH. cbn. reflexivity.
Qed.
Lemma get_set {A} (l l' : list A) i j x : set l i x = Ok l' -> get l' j = if j =? i then Ok x else get l j.
Proof.
  unfold set. destruct ((0 <=? i) && (i <? zlen l)) eqn:E; [|discriminate]. intros [= <-]. unfold get.
  destruct (Z.ltb_spec j 0).
  - destruct (Z.eqb_spec j i); [lia|reflexivity].
  - rewrite nth_error_upd. unfold zlen in E. destruct (Z.eqb_spec j i).
    + subst. rewrite Nat.eqb_refl. destruct (Nat.ltb_spec (Z.to_nat i) (length l)); [reflexivity|lia].
    + destruct (Nat.eqb_spec (Z.to_nat j) (Z.to_nat i)); [lia|reflexivity].
Qed.
Lemma set_ok {A} (l : list A) i x : 0 <= i < zlen l -> exists l', set l i x = Ok l'.
Proof. intros H. unfold set. replace ((0 <=? i) && (i <? zlen l)) with true by lia. eauto. Qed.
Lemma list_ext_get {A} (l l' : list A) : zlen l = zlen l' -> (forall i, 0 <= i < zlen l -> get l i = get l' i) -> l = l'.
Proof.
  revert l'. induction l as [|a l IH]; intros [|b l'] Hl H.
  - reflexivity. - rewrite zlen_cons, zlen_nil in Hl. pose proof (zlen_nonneg l'). lia.
  - rewrite zlen_cons, zlen_nil in Hl. pose proof (zlen_nonneg l). lia.
  - rewrite !zlen_cons in *. pose proof (zlen_nonneg l). f_equal.
    + specialize (H 0 ltac:(lia)). cbn in H. congruence.
    + apply IH; [lia|]. intros i Hi. specialize (H (i + 1) ltac:(lia)). unfold get in *.
      destruct (Z.ltb_spec (i + 1) 0); [lia|]. destruct (Z.ltb_spec i 0); [lia|].
      replace (Z.to_nat (i + 1)) with (S (Z.to_nat i)) in H by lia. exact H.
Qed.
