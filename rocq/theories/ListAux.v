(** List facts shared by the proofs about the collections. *)
From Coq Require Import ZArith Bool List Lia ZifyBool.
From Verif Require Import Mach.
Import ListNotations.
Open Scope Z_scope.

Section L.
Context {A : Type}.
Implicit Types (l a b : list A).
Lemma exists_last_or l : l = [] \/ exists u x, l = u ++ [x].
Proof. destruct l as [|y l]; [left; reflexivity|right]. destruct (exists_last (l := y :: l)) as (u & x & E); [discriminate|]. eauto. Qed.
Lemma skipn_skipn n m l : skipn n (skipn m l) = skipn (m + n) l.
Proof. revert l. induction m as [|m IH]; intros l; [reflexivity|]. destruct l as [|x l]; [rewrite !skipn_nil; reflexivity|]. apply IH. Qed.
Lemma skipn_app_len a b n : n = length a -> skipn n (a ++ b) = b.
Proof. intros ->. rewrite skipn_app, skipn_all, Nat.sub_diag. reflexivity. Qed.
Lemma firstn_app_len a b n : n = length a -> firstn n (a ++ b) = a.
Proof. intros ->. rewrite firstn_app, firstn_all, Nat.sub_diag, firstn_O, app_nil_r. reflexivity. Qed.
Lemma nth_error_get l i : 0 <= i -> get l i = match nth_error l (Z.to_nat i) with Some x => Ok x | None => Oob end.
Proof. intros H. unfold get. destruct (Z.ltb_spec i 0); [lia|reflexivity]. Qed.
Lemma get_app_l a b i : 0 <= i < zlen a -> get (a ++ b) i = get a i.
Proof. intros H. rewrite !nth_error_get, nth_error_app1 by (unfold zlen in H; lia). reflexivity. Qed.
Lemma get_app_r a b i : zlen a <= i -> get (a ++ b) i = get b (i - zlen a).
Proof. intros H. pose proof (zlen_nonneg a). rewrite !nth_error_get, nth_error_app2 by (unfold zlen in *; lia). replace (Z.to_nat (i - zlen a)) with (Z.to_nat i - length a)%nat by (unfold zlen in *; lia). reflexivity. Qed.
Lemma firstn_zlen n l : 0 <= n <= zlen l -> zlen (firstn (Z.to_nat n) l) = n.
Proof. intros H. unfold zlen in *. rewrite firstn_length. lia. Qed.
Lemma skipn_zlen n l : 0 <= n <= zlen l -> zlen (skipn (Z.to_nat n) l) = zlen l - n.
Proof. intros H. unfold zlen in *. rewrite skipn_length. lia. Qed.
End L.
