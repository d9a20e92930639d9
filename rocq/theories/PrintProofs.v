(** Proofs about printing. *)
From Coq Require Import ZArith Bool List Lia ZifyBool.
From Verif Require Import Mach PrintModel PrintSpec.
Import ListNotations.
Local Open Scope Z_scope.

Definition after (f : formatter) (t : list Z) : formatter := Formatter (written f ++ t) (room f - zlen t) (idx f).
(** [m] writes [t] and returns [v] on a formatter with index [i]. *)
Definition does {A} (i : Z) (m : printer A) (t : list Z) (v : A) : Prop := forall f, idx f = i -> 0 <= room f ->
  m f = if zlen t <=? room f then (Some v, after f t) else (None, after f (firstn (Z.to_nat (room f)) t)).
Lemma after_nil : forall f, after f [] = f.
Proof. intros [w r i]. unfold after. cbn [written room idx]. rewrite app_nil_r. f_equal. change (zlen (@nil Z)) with 0. lia. Qed.
Lemma does_ret : forall A i (v : A), does i (ret v) [] v.
Proof. intros A i v f _ R. change (zlen (@nil Z)) with 0. destruct (Z.leb_spec 0 (room f)); [|lia]. unfold ret. rewrite after_nil. reflexivity. Qed.
Lemma after_app : forall f a b, after (after f a) b = after f (a ++ b).
Proof. intros f a b. unfold after. cbn [written room idx]. rewrite app_assoc, zlen_app. f_equal. lia. Qed.
Lemma does_bind : forall A B i (m : printer A) (k : A -> printer B) t v t' v', does i m t v -> does i (k v) t' v' -> does i (andthen m k) (t ++ t') v'.
Proof.
  intros A B i m k t v t' v' M K f I R. unfold andthen. rewrite M by assumption. rewrite zlen_app. pose proof (zlen_nonneg t'). pose proof (zlen_nonneg t).
  destruct (Z.leb_spec (zlen t) (room f)) as [L | L].
  - rewrite K by (cbn; lia). cbn [after room]. destruct (Z.leb_spec (zlen t') (room f - zlen t)), (Z.leb_spec (zlen t + zlen t') (room f)); try lia; rewrite after_app; try reflexivity.
    f_equal. f_equal. rewrite firstn_app, (firstn_all2 t) by (unfold zlen in *; lia). f_equal. f_equal. unfold zlen in *. lia.
  - destruct (Z.leb_spec (zlen t + zlen t') (room f)); [lia|]. f_equal. f_equal. rewrite firstn_app.
    replace (Z.to_nat (room f) - length t)%nat with 0%nat by (unfold zlen in *; lia). cbn [firstn]. rewrite app_nil_r. reflexivity.
Qed.
Lemma does_out : forall i c, does i (out c) [c] 1.
Proof.
  intros i c f I R. unfold out. change (zlen [c]) with 1. destruct (Z.leb_spec (room f) 0), (Z.leb_spec 1 (room f)); try lia; [|reflexivity].
  replace (Z.to_nat (room f)) with 0%nat by lia. cbn [firstn]. rewrite after_nil. reflexivity.
Qed.
Lemma does_each : forall i t, does i (out_each t) t tt.
Proof. intros i. induction t as [|c t IH]; cbn [out_each]; [apply does_ret|]. exact (does_bind _ _ i (out c) _ [c] 1 t tt (does_out i c) IH). Qed.
Lemma does_print : forall i t, does i (print t) t i.
Proof.
  intros i t. rewrite <- (app_nil_r t) at 2. refine (does_bind _ _ i _ _ t tt [] i (does_each i t) _).
  intros f I R. change (zlen (@nil Z)) with 0. destruct (Z.leb_spec 0 (room f)); [|lia]. rewrite after_nil, I. reflexivity.
Qed.
Lemma does_printf : forall i t, does i (printf t) t (zlen t).
Proof.
  intros i. induction t as [|c t IH]; cbn [printf]; [apply does_ret|]. refine (does_bind _ _ i (out c) _ [c] 1 t _ (does_out i c) _).
  rewrite <- (app_nil_r t) at 2. refine (does_bind _ _ i _ _ t _ [] _ IH _). rewrite zlen_cons. apply does_ret.
Qed.
(** What follows in a list of texts, the first of which may need a separator. *)
Definition rest (sep : bool) (l : list (list Z)) : list Z := match l with [] => [] | _ => (if sep then [44; 32] else []) ++ commas l end.
Lemma rest_cons : forall sep x l, rest sep (x :: l) = (if sep then [44; 32] else []) ++ x ++ rest true l.
Proof. intros sep x [|y l]; cbn [rest commas]; [rewrite app_nil_r; reflexivity | reflexivity]. Qed.
Lemma rest_false : forall l, rest false l = commas l.
Proof. intros [|x l]; reflexivity. Qed.
Lemma does_sep : forall i (b : bool), does i (if b then print [44; 32] else ret 0) (if b then [44; 32] else []) (if b then i else 0).
Proof. intros i []; [apply does_print | apply does_ret]. Qed.
Lemma does_set_loop : forall values found n, does 0 (set_loop values found n) (rest found (map fst (filter snd values))) (n + total (map fst (filter snd values))).
Proof.
  induction values as [|[name has] r IH]; intros found n; cbn [set_loop].
  - cbn. rewrite Z.add_0_r. apply does_ret.
  - destruct has; cbn [negb filter snd]; [|apply IH]. cbn [map fst]. rewrite rest_cons.
    apply (does_bind _ _ 0 _ _ _ _ _ _ (does_sep 0 found)). apply (does_bind _ _ 0 _ _ _ _ _ _ (does_printf 0 name)).
    cbn [total fold_right]. fold (total (map fst (filter snd r))).
    replace (n + (zlen name + total (map fst (filter snd r)))) with (n + (if found then 0 else 0) + zlen name + total (map fst (filter snd r))) by (destruct found; lia). apply IH.
Qed.
Lemma does_set : forall values, does 0 (set_to_format values) (set_text values) (total (map fst (filter snd values))).
Proof.
  intros values. unfold set_to_format, set_text. apply (does_bind _ _ 0 _ _ _ _ _ _ (does_print 0 [91])). rewrite <- rest_false.
  apply (does_bind _ _ 0 _ _ _ _ _ _ (does_set_loop values false 0)). rewrite <- (app_nil_r [93]) at 2. apply (does_bind _ _ 0 _ _ _ _ _ _ (does_print 0 [93])).
  rewrite !Z.add_0_r. apply does_ret.
Qed.
Definition entry (e : list Z * list Z) : list Z := fst e ++ [58; 32] ++ snd e.
Lemma does_map_loop : forall entries i n, 0 <= i -> does 0 (map_loop entries i n) (rest (negb (i =? 0)) (map entry entries)) (n + total (map entry entries)).
Proof.
  induction entries as [|[name shown] r IH]; intros i n I; cbn [map_loop].
  - cbn. rewrite Z.add_0_r. apply does_ret.
  - cbn [map]. rewrite rest_cons. apply (does_bind _ _ 0 _ _ _ _ _ _ (does_sep 0 (negb (i =? 0)))).
    apply (does_bind _ _ 0 _ _ _ _ _ _ (does_printf 0 (entry (name, shown)))). cbn [total fold_right]. fold (total (map entry r)).
    rewrite Z.add_assoc. replace true with (negb (i + 1 =? 0)) by lia. apply IH. lia.
Qed.
Lemma does_map : forall entries, does 0 (map_to_format entries) (map_text entries) (total (map entry entries)).
Proof.
  intros entries. unfold map_to_format, map_text. apply (does_bind _ _ 0 _ _ _ _ _ _ (does_print 0 [123; 32])). fold entry. rewrite <- rest_false.
  apply (does_bind _ _ 0 _ _ _ _ _ _ (does_map_loop entries 0 0 (Z.le_refl 0))). rewrite <- (app_nil_r [32; 125]) at 2. apply (does_bind _ _ 0 _ _ _ _ _ _ (does_print 0 [32; 125])).
  rewrite !Z.add_0_r. apply does_ret.
Qed.
Lemma does_writes : forall m t v, does 0 m t v -> writes m t.
Proof.
  intros m t v D f I R. specialize (D f I R). destruct (m f) as [o g]. cbn [fst snd]. destruct (Z.leb_spec (zlen t) (room f)) as [L | L]; injection D as -> ->; cbn [after written].
  - split; [rewrite firstn_all2 by (unfold zlen in *; lia); reflexivity|]. split; [intros _; exact L | intros _; exists v; reflexivity].
  - split; [reflexivity|]. split; [intros [n H]; discriminate | lia].
Qed.
Lemma does_returns : forall m t v, does 0 m t v -> returns m v.
Proof. intros m t v D f k I R H. rewrite D in H by assumption. destruct (zlen t <=? room f); [injection H as <-; reflexivity | discriminate]. Qed.
