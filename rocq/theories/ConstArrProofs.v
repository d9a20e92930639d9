(** Lemmas about constant lists: elements, concatenation. *)
From Coq Require Import ZArith List Bool Lia ZifyBool.
From Verif Require Import ConstArrModel ConstArrSpec.
Import ListNotations.
Open Scope Z_scope.

Lemma indices_app : forall m n, 0 <= m -> 0 <= n -> indices (m + n) = indices m ++ map (fun i => m + i) (indices n).
Proof.
  intros m n M N. unfold indices. rewrite Z2Nat.inj_add, seq_app, map_app by lia. f_equal. cbn [Nat.add].
  rewrite map_map. rewrite <- (Nat.add_0_r (Z.to_nat m)) at 1. generalize 0%nat as k. induction (Z.to_nat n) as [|c IH]; intros k; [reflexivity|].
  cbn [seq map]. f_equal; [lia|]. rewrite <- (IH (S k)). f_equal. f_equal. lia.
Qed.
Lemma indices_in : forall n i, In i (indices n) <-> 0 <= i < n.
Proof.
  intros n i. unfold indices. rewrite in_map_iff. split.
  - intros [k [E H]]. apply in_seq in H. lia.
  - intros H. exists (Z.to_nat i). split; [lia|]. apply in_seq. lia.
Qed.
Lemma indices_length : forall n, length (indices n) = Z.to_nat n.
Proof. intros. unfold indices. rewrite map_length, seq_length. reflexivity. Qed.
Lemma elements_length : forall a, length (elements a) = Z.to_nat (alen a).
Proof. intros. unfold elements. rewrite map_length. apply indices_length. Qed.
Lemma elements_ext : forall n x y, (forall i, 0 <= i < n -> value_at x i = value_at y i) -> elements (mkArr n x) = elements (mkArr n y).
Proof. intros n x y H. unfold elements. cbn [alen ainit]. apply map_ext_in. intros i I. apply H. apply indices_in; auto. Qed.
Lemma elements_app : forall m n x y z, 0 <= m -> 0 <= n -> (forall i, 0 <= i < m -> value_at x i = value_at y i) ->
  (forall i, 0 <= i < n -> value_at x (m + i) = value_at z i) -> elements (mkArr (m + n) x) = elements (mkArr m y) ++ elements (mkArr n z).
Proof.
  intros m n x y z M N H1 H2. unfold elements. cbn [alen ainit]. rewrite indices_app, map_app, map_map by auto. f_equal; apply map_ext_in; intros i I; apply indices_in in I; auto.
Qed.
Lemma elements_full : forall l, elements (mkArr (Z.of_nat (length l)) (IFull l)) = l.
Proof.
  intros l. unfold elements. cbn [alen ainit value_at]. unfold indices. rewrite Nat2Z.id, map_map.
  transitivity (map (fun k => nth k l EZero) (seq 0 (length l))).
  - apply map_ext. intros k. cbn [value_at]. rewrite Nat2Z.id. reflexivity.
  - induction l as [|x l IH]; [reflexivity|]. cbn [length seq map nth]. f_equal. rewrite <- seq_shift, map_map. exact IH.
Qed.
Lemma elements_zero : forall n, elements (mkArr n IZero) = zeros n.
Proof.
  intros n. unfold elements, zeros, indices. cbn [alen ainit value_at]. generalize 0%nat as k. induction (Z.to_nat n) as [|c IH]; intros k; [reflexivity|].
  cbn [seq map repeat]. f_equal. apply IH.
Qed.
Lemma zeros_length : forall n, length (zeros n) = Z.to_nat n.
Proof. intros. apply repeat_length. Qed.
Lemma nth_zeros : forall n k, nth k (zeros n) EZero = EZero.
Proof. intros n k. unfold zeros. generalize (Z.to_nat n) as c. intros c. revert k. induction c; destruct k; cbn; auto. Qed.

(** ** Sparse lists. *)
Definition look (l : list (Z * Elem)) (i : Z) : Elem := match find (fun p => fst p =? i) l with Some p => snd p | None => EZero end.
Lemma value_sparse : forall l i, value_at (ISparse l) i = look l i. Proof. reflexivity. Qed.
Lemma look_cons : forall i e l j, look ((i, e) :: l) j = if i =? j then e else look l j.
Proof. intros. unfold look. cbn [find fst]. destruct (i =? j); reflexivity. Qed.
Lemma increasing_weaken : forall l f f' n n', f' <= f -> n <= n' -> increasing f n l -> increasing f' n' l.
Proof.
  induction l as [|[i e] l IH]; intros f f' n n' F N H; cbn [increasing] in *; auto. destruct H as [H1 H2]. split; [lia|]. apply (IH (i + 1) (i + 1) n n'); auto; lia.
Qed.
Lemma look_outside : forall l f n i, increasing f n l -> i < f \/ n <= i -> look l i = EZero.
Proof.
  induction l as [|[k e] l IH]; intros f n i H O; [reflexivity|]. cbn [increasing] in H. destruct H as [H1 H2]. rewrite look_cons.
  destruct (k =? i) eqn:E; [lia|]. apply (IH (k + 1) n); auto. lia.
Qed.
Lemma look_app : forall l r m n i, increasing 0 m l -> increasing m n r -> look (l ++ r) i = if i <? m then look l i else look r i.
Proof.
  intros l r m n i. generalize 0 as f. induction l as [|[k e] l IH]; intros f H R.
  - cbn [app]. destruct (i <? m) eqn:E; [|reflexivity]. rewrite (look_outside r m n) by (auto; lia). reflexivity.
  - cbn [increasing] in H. destruct H as [H1 H2]. cbn [app]. rewrite !look_cons. destruct (k =? i) eqn:E; [destruct (i <? m) eqn:Q; [reflexivity|lia]|]. apply (IH (k + 1)); auto.
Qed.
Definition shift (m : Z) (l : list (Z * Elem)) : list (Z * Elem) := map (fun p => (fst p + m, snd p)) l.
Lemma look_shift : forall l m i, look (shift m l) (m + i) = look l i.
Proof.
  induction l as [|[k e] l IH]; intros m i; [reflexivity|]. cbn [shift map fst snd]. fold (shift m l). rewrite !look_cons. rewrite IH.
  destruct (k + m =? m + i) eqn:E, (k =? i) eqn:Q; auto; lia.
Qed.
Lemma increasing_shift : forall l m f n, increasing f n l -> increasing (f + m) (n + m) (shift m l).
Proof.
  induction l as [|[k e] l IH]; intros m f n H; cbn [shift map increasing fst snd] in *; auto. destruct H as [H1 H2]. split; [lia|].
  replace (k + m + 1) with (k + 1 + m) by lia. apply IH; auto.
Qed.
Lemma increasing_app : forall l r f m n, increasing f m l -> increasing m n r -> f <= m -> m <= n -> increasing f n (l ++ r).
Proof.
  induction l as [|[k e] l IH]; intros r f m n H R F N; cbn [app increasing] in *; [apply (increasing_weaken r m f n n); auto; lia|]. destruct H as [H1 H2]. split; [lia|].
  apply (IH r (k + 1) m n); auto. lia.
Qed.

(** ** Filling. *)
Lemma set_nat_some : forall A (l : list A) n x d, (n < length l)%nat -> exists l', set_nat l n x = Some l' /\ length l' = length l /\ forall k, nth k l' d = if Nat.eqb k n then x else nth k l d.
Proof.
  induction l as [|y l IH]; intros n x d H; cbn in H; [lia|]. destruct n as [|n]; cbn [set_nat].
  - eexists. split; [reflexivity|]. split; [reflexivity|]. intros [|k]; reflexivity.
  - destruct (IH n x d) as (l' & E & L & N); [lia|]. rewrite E. eexists. split; [reflexivity|]. split; [cbn; lia|]. intros [|k]; [reflexivity|]. cbn. apply N.
Qed.
Lemma set_at_some : forall A (l : list A) i x d, 0 <= i < vlen l -> exists l', set_at l i x = Some l' /\ length l' = length l /\ forall k, nth k l' d = if Nat.eqb k (Z.to_nat i) then x else nth k l d.
Proof.
  intros A l i x d H. unfold set_at, vlen in *. destruct (i <? 0) eqn:E; [lia|]. apply set_nat_some. lia.
Qed.
Lemma fill_some : forall l offset arr f n, increasing f n l -> 0 <= f -> 0 <= offset -> offset + n <= vlen arr ->
  exists arr', fill l offset arr = Some arr' /\ length arr' = length arr /\
  forall k, nth k arr' EZero = if existsb (fun p => fst p =? Z.of_nat k - offset) l then look l (Z.of_nat k - offset) else nth k arr EZero.
Proof.
  induction l as [|[i e] l IH]; intros offset arr f n H F O B.
  - exists arr. split; [reflexivity|]. split; [reflexivity|]. intros k. reflexivity.
  - cbn [increasing] in H. destruct H as [H1 H2]. cbn [fill].
    destruct (set_at_some _ arr (offset + i) e EZero) as (a1 & E1 & L1 & N1); [lia|]. rewrite E1.
    destruct (IH offset a1 (i + 1) n H2) as (a2 & E2 & L2 & N2); [lia|auto|unfold vlen in *; lia|]. exists a2. split; [exact E2|]. split; [lia|].
    intros k. rewrite N2. cbn [existsb fst]. rewrite look_cons. destruct (i =? Z.of_nat k - offset) eqn:E; cbn [orb].
    + replace (existsb (fun p => fst p =? Z.of_nat k - offset) l) with false.
      * rewrite N1. destruct (Nat.eqb k (Z.to_nat (offset + i))) eqn:Q; [reflexivity|]. apply Nat.eqb_neq in Q. lia.
      * symmetry. apply not_true_is_false. intros X. apply existsb_exists in X. destruct X as ([j x] & X1 & X2). cbn [fst] in X2.
        assert (j = i) by lia. subst j. clear - H2 X1. assert (G : forall l f, increasing f n l -> In (i, x) l -> f <= i).
        { clear. induction l as [|[j y] l IH]; intros f H I; [destruct I|]. cbn [increasing] in H. destruct H as [H1 H2]. destruct I as [I|I]; [injection I as <- <-; lia|]. specialize (IH _ H2 I). lia. }
        specialize (G _ _ H2 X1). lia.
    + rewrite N1. destruct (Nat.eqb k (Z.to_nat (offset + i))) eqn:Q; [apply Nat.eqb_eq in Q; lia|]. reflexivity.
Qed.
Lemma look_absent : forall l i, existsb (fun p => fst p =? i) l = false -> look l i = EZero.
Proof.
  induction l as [|[k e] l IH]; intros i H; [reflexivity|]. cbn [existsb fst] in H. apply orb_false_iff in H. destruct H as [H1 H2]. rewrite look_cons, H1. apply IH; auto.
Qed.
Lemma list_eq_nth : forall A (l r : list A) d, length l = length r -> (forall k, (k < length l)%nat -> nth k l d = nth k r d) -> l = r.
Proof. intros A l r d L H. apply (nth_ext l r d d); auto. Qed.
Lemma elements_nth : forall a k, (k < Z.to_nat (alen a))%nat -> nth k (elements a) EZero = value_at (ainit a) (Z.of_nat k).
Proof.
  intros a k H. unfold elements. rewrite (nth_indep _ EZero (value_at (ainit a) 0)) by (rewrite map_length, indices_length; auto). rewrite map_nth. f_equal.
  unfold indices. change 0 with (Z.of_nat 0). rewrite map_nth. rewrite seq_nth by auto. reflexivity.
Qed.
Lemma fill_zeros : forall l acc n, increasing 0 n l -> 0 <= n -> fill l (vlen acc) (acc ++ zeros n) = Some (acc ++ elements (mkArr n (ISparse l))).
Proof.
  intros l acc n H N. destruct (fill_some l (vlen acc) (acc ++ zeros n) 0 n H) as (arr & E & L & K); [lia|unfold vlen; lia|unfold vlen; rewrite app_length, zeros_length; lia|].
  rewrite E. f_equal. rewrite app_length, zeros_length in L. apply (list_eq_nth _ _ _ EZero); [rewrite app_length, elements_length; exact L|].
  intros k Hk. rewrite K. destruct (Nat.lt_ge_cases k (length acc)) as [Q|Q].
  - rewrite !app_nth1 by auto. replace (existsb (fun p => fst p =? Z.of_nat k - vlen acc) l) with false; [reflexivity|]. symmetry. apply not_true_is_false. intros X.
    apply existsb_exists in X. destruct X as ([j x] & X1 & X2). cbn [fst] in X2. unfold vlen in X2.
    assert (G : forall l f, increasing f n l -> In (j, x) l -> f <= j).
    { clear. induction l as [|[i y] l IH]; intros f H I; [destruct I|]. cbn [increasing] in H. destruct H as [H1 H2]. destruct I as [I|I]; [injection I as <- <-; lia|]. specialize (IH _ H2 I). lia. }
    specialize (G _ _ H X1). lia.
  - rewrite !app_nth2 by auto. rewrite elements_nth by (cbn [alen]; lia). cbn [ainit]. rewrite value_sparse, nth_zeros.
    replace (Z.of_nat (k - length acc)) with (Z.of_nat k - vlen acc) by (unfold vlen; lia).
    destruct (existsb _ l) eqn:X; [reflexivity|]. symmetry. apply look_absent; auto.
Qed.
Lemma fill_full : forall r l n, increasing 0 n r -> 0 <= n -> fill r (Z.of_nat (length l)) (l ++ zeros n) = Some (l ++ elements (mkArr n (ISparse r))).
Proof. intros. apply fill_zeros; auto. Qed.

(** ** The nine combinations. *)
Lemma elements_wf_full : forall n l, Z.of_nat (length l) = n -> elements (mkArr n (IFull l)) = l.
Proof. intros n l <-. apply elements_full. Qed.
Lemma concat_inits_ok : forall x y, wf x -> wf y -> exists a, concat_inits x y = Ok a /\ alen a = alen x + alen y /\ wf a /\ elements a = elements x ++ elements y.
Proof.
  intros [m x] [n y] [M X] [N Y]. cbn [alen ainit] in *. unfold concat_inits. cbn [alen ainit]. destruct x as [|x|x], y as [|y|y].
  - eexists. split; [reflexivity|]. split; [reflexivity|]. split; [split; cbn; auto; lia|]. apply elements_app; try lia; auto.
  - eexists. split; [reflexivity|]. split; [reflexivity|]. assert (L : Z.of_nat (length (zeros m ++ y)) = m + n) by (rewrite app_length, zeros_length; lia). split; [split; cbn [alen ainit]; lia|].
    rewrite !elements_wf_full by auto. rewrite elements_zero. reflexivity.
  - eexists. split; [reflexivity|]. split; [reflexivity|]. fold (shift m y). destruct Y as [Y1 Y2]. pose proof (increasing_shift y m 0 n Y2) as S. replace (0 + m) with m in S by lia. replace (n + m) with (m + n) in S by lia. split.
    + split; cbn [alen ainit]; [lia|]. split; [destruct y; [congruence|discriminate]|]. apply (increasing_weaken _ m 0 (m + n) (m + n)); auto; lia.
    + apply elements_app; try lia.
      * intros i I. rewrite value_sparse. cbn [value_at]. apply (look_outside _ m (m + n)); auto; lia.
      * intros i I. rewrite !value_sparse. apply look_shift.
  - eexists. split; [reflexivity|]. split; [reflexivity|]. assert (L : Z.of_nat (length (x ++ zeros n)) = m + n) by (rewrite app_length, zeros_length; lia). split; [split; cbn [alen ainit]; lia|].
    rewrite !elements_wf_full by auto. rewrite elements_zero. reflexivity.
  - eexists. split; [reflexivity|]. split; [reflexivity|]. assert (L : Z.of_nat (length (x ++ y)) = m + n) by (rewrite app_length; lia). split; [split; cbn [alen ainit]; lia|].
    rewrite !elements_wf_full by auto. reflexivity.
  - destruct Y as [Y1 Y2]. rewrite <- X. rewrite fill_full by (auto; lia). eexists. split; [reflexivity|]. split; [reflexivity|].
    assert (L : Z.of_nat (length (x ++ elements (mkArr n (ISparse y)))) = m + n) by (rewrite app_length, elements_length; cbn [alen]; lia). split; [split; cbn [alen ainit]; lia|].
    rewrite (elements_wf_full _ x) by auto. rewrite elements_wf_full by lia. reflexivity.
  - eexists. split; [reflexivity|]. split; [reflexivity|]. destruct X as [X1 X2]. split.
    + split; cbn [alen ainit]; [lia|]. split; auto. apply (increasing_weaken _ 0 0 m (m + n)); auto; lia.
    + apply elements_app; try lia; [auto|]. intros i I. rewrite value_sparse. cbn [value_at]. apply (look_outside _ 0 m); auto; lia.
  - destruct X as [X1 X2]. pose proof (fill_zeros x [] m X2 ltac:(lia)) as E. cbn [app] in E. change (vlen (@nil Elem)) with 0 in E. rewrite E. eexists. split; [reflexivity|]. split; [reflexivity|].
    assert (L : Z.of_nat (length (elements (mkArr m (ISparse x)) ++ y)) = m + n) by (rewrite app_length, elements_length; cbn [alen]; lia). split; [split; cbn [alen ainit]; lia|].
    rewrite !(elements_wf_full) by auto. reflexivity.
  - eexists. split; [reflexivity|]. split; [reflexivity|]. fold (shift m y). destruct X as [X1 X2], Y as [Y1 Y2]. pose proof (increasing_shift y m 0 n Y2) as S. replace (0 + m) with m in S by lia. replace (n + m) with (m + n) in S by lia. split.
    + split; cbn [alen ainit]; [lia|]. split; [destruct x; [congruence|discriminate]|]. apply (increasing_app _ _ 0 m (m + n)); auto; lia.
    + apply elements_app; try lia; intros i I; rewrite !value_sparse, (look_app x (shift m y) m (m + n)) by auto.
      * destruct (i <? m) eqn:E; [reflexivity|lia].
      * destruct (m + i <? m) eqn:E; [lia|]. apply look_shift.
Qed.
Lemma wf_const_init : forall c a, wf_const c -> init_of c = Some a -> wf a.
Proof. intros c a W H. destruct c as [| [b|] | b | | |]; cbn in *; try discriminate; injection H as <-; auto. Qed.
Definition listy (c : Const) : Prop := match c with CSlice _ | CInit _ => True | _ => False end.
Lemma concat_typed_ok : forall l r, listy l -> listy r -> wf_const l -> wf_const r -> (init_of l <> None \/ init_of r <> None) ->
  exists c ls rs, concat_typed l r = Ok c /\ wf_const c /\ items l = Some ls /\ items r = Some rs /\ items c = Some (ls ++ rs).
Proof.
  intros l r Hl Hr Wl Wr NE. unfold concat_typed.
  assert (I : forall c, listy c -> items c = Some match init_of c with Some a => elements a | None => [] end) by (intros [| [b|] | b | | |] H; cbn in *; try contradiction; reflexivity).
  rewrite (I l Hl), (I r Hr). pose proof (wf_const_init l) as Vl. pose proof (wf_const_init r) as Vr.
  destruct (init_of l) as [a|], (init_of r) as [b|].
  - specialize (Vl a Wl eq_refl). specialize (Vr b Wr eq_refl). destruct (concat_inits_ok a b Vl Vr) as (c & E & L & W & S). rewrite E. cbn [obind].
    eexists _, _, _. split; [reflexivity|]. split; [exact W|]. split; [reflexivity|]. split; [reflexivity|]. cbn [items]. rewrite S. reflexivity.
  - specialize (Vl a Wl eq_refl). eexists _, _, _. split; [reflexivity|]. split; [exact Vl|]. split; [reflexivity|]. split; [reflexivity|]. cbn [items]. rewrite app_nil_r. reflexivity.
  - specialize (Vr b Wr eq_refl). eexists _, _, _. split; [reflexivity|]. split; [exact Vr|]. split; [reflexivity|]. split; [reflexivity|]. reflexivity.
  - destruct NE; congruence.
Qed.

(** ** Untyped lists. *)
Lemma full_values_ok : forall l, Forall (fun e => exists v, e = EVal v) l -> full_values l = Some l.
Proof. induction l as [|e l IH]; intros H; [reflexivity|]. inversion H as [|? ? [v ->] H2]; subst. cbn [full_values]. rewrite IH by auto. reflexivity. Qed.
Lemma add_untyped_ok : forall acc c l, wf_const c -> plain c -> items c = Some l -> add_untyped acc c = Ok (acc ++ l).
Proof.
  assert (A : forall acc a l, wf a -> match ainit a with IFull l => Forall (fun e => exists v, e = EVal v) l | _ => True end -> Some (elements a) = Some l ->
    match ainit a with
      | IFull l => match full_values l with Some l => Ok (acc ++ l) | None => Crash end
      | IZero => Ok (acc ++ zeros (alen a))
      | ISparse l => match fill l (vlen acc) (acc ++ zeros (alen a)) with Some l => Ok l | None => Crash end
      end = Ok (acc ++ l)).
  { intros acc [n x] l [N W] P E. injection E as <-. cbn [alen ainit] in *. destruct x as [|x|x].
    - rewrite elements_zero. reflexivity.
    - rewrite full_values_ok by auto. rewrite elements_wf_full by auto. reflexivity.
    - destruct W as [W1 W2]. rewrite fill_zeros by (auto; lia). reflexivity. }
  intros acc [| [a|] | a | | u |] l W P E; cbn [add_untyped items wf_const plain] in *; try contradiction; try discriminate.
  - apply A; auto.
  - injection E as <-. rewrite app_nil_r. reflexivity.
  - apply A; auto.
  - injection E as <-. reflexivity.
Qed.
Lemma concat_untyped_ok : forall l r ls rs, wf_const l -> wf_const r -> plain l -> plain r -> items l = Some ls -> items r = Some rs -> concat_untyped l r = Ok (CUntyped (ls ++ rs)).
Proof.
  intros l r ls rs Wl Wr Pl Pr El Er. unfold concat_untyped. rewrite (add_untyped_ok [] l ls) by auto. cbn [obind app]. rewrite (add_untyped_ok ls r rs) by auto. reflexivity.
Qed.

(** ** Appending. *)
Lemma append_one_ok : forall c e ls x, listy c -> init_of c <> None -> wf_const c -> items c = Some ls ->
  exists c', append_one c x (Some e) = Ok c' /\ wf_const c' /\ items c' = Some (ls ++ [e]).
Proof.
  assert (A : forall a e, wf a -> exists a', (match ainit a with
                                        | IZero => ISparse [(alen a, e)]
                                        | ISparse l => ISparse (l ++ [(alen a, e)])
                                        | IFull l => IFull (l ++ [e])
                                        end) = a' /\ wf (mkArr (alen a + 1) a') /\ elements (mkArr (alen a + 1) a') = elements a ++ [e]).
  { intros [n x] e [N W]. cbn [alen ainit] in *. eexists. split; [reflexivity|].
    assert (Z1 : [e] = elements (mkArr 1 (IFull [e]))) by reflexivity. destruct x as [|x|x].
    - split; [split; cbn [alen ainit increasing]; [lia|split; [discriminate|split; [lia|auto]]]|]. rewrite Z1. apply elements_app; try lia; intros i I; rewrite value_sparse, look_cons.
      + destruct (n =? i) eqn:E; [lia|reflexivity].
      + destruct (n =? n + i) eqn:E; [|lia]. cbn [value_at]. replace (Z.to_nat i) with 0%nat by lia. reflexivity.
    - split; [split; cbn [alen ainit]; [lia|rewrite app_length; cbn [length]; lia]|]. rewrite !elements_wf_full; auto. rewrite app_length; cbn [length]; lia.
    - destruct W as [W1 W2]. assert (T : increasing n (n + 1) [(n, e)]) by (cbn [increasing]; split; [lia|auto]). split.
      + split; cbn [alen ainit]; [lia|]. split; [destruct x; discriminate|]. apply (increasing_app _ _ 0 n (n + 1)); auto; lia.
      + rewrite Z1. apply elements_app; try lia; intros i I; rewrite !value_sparse, (look_app x [(n, e)] n (n + 1)) by auto.
        * destruct (i <? n) eqn:E; [reflexivity|lia].
        * destruct (n + i <? n) eqn:E; [lia|]. rewrite look_cons. destruct (n =? n + i) eqn:Q; [|lia]. cbn [value_at]. replace (Z.to_nat i) with 0%nat by lia. reflexivity. }
  intros [| [a|] | a | | u |] e ls x L NE W E; cbn [listy init_of items wf_const] in *; try contradiction; try congruence; injection E as <-;
    destruct (A a e W) as (a' & Q & W' & S); unfold append_one; rewrite Q; cbn [obind]; eexists; (split; [reflexivity|]); (split; [exact W'|]); cbn [items]; rewrite S; reflexivity.
Qed.

(** ** Bytes. *)
Lemma contract_full_ok : forall l, Forall (fun e => exists v, e = EVal v) l -> contract_full l = Some (map byte_of l).
Proof. induction l as [|e l IH]; intros H; [reflexivity|]. inversion H as [|? ? [v ->] H2]; subst. cbn [contract_full map byte_of]. rewrite IH by auto. reflexivity. Qed.
Lemma set_nat_map : forall (l : list Elem) n e v, e = EVal v -> set_nat (map byte_of l) n (low_byte v) = option_map (map byte_of) (set_nat l n e).
Proof. intros l n e v ->. revert n. induction l as [|x l IH]; intros [|n]; cbn [map set_nat]; try reflexivity. rewrite IH. destruct (set_nat l n (EVal v)); reflexivity. Qed.
Lemma contract_sparse_fill : forall l arr, Forall (fun p => exists v, snd p = EVal v) l -> contract_sparse l (map byte_of arr) = option_map (map byte_of) (fill l 0 arr).
Proof.
  induction l as [|[i e] l IH]; intros arr H; [reflexivity|]. inversion H as [|? ? [v Ev] H2]; subst. cbn [snd] in Ev. subst e. cbn [contract_sparse fill]. rewrite Z.add_0_l. unfold set_at.
  destruct (i <? 0); [reflexivity|]. rewrite (set_nat_map arr _ (EVal v) v) by reflexivity. destruct (set_nat arr (Z.to_nat i) (EVal v)) as [a|]; cbn [option_map]; [apply IH; auto|reflexivity].
Qed.
Lemma map_byte_zeros : forall n, map byte_of (zeros n) = repeat 0 (Z.to_nat n).
Proof. intros n. unfold zeros. induction (Z.to_nat n); cbn; [reflexivity|]. f_equal; auto. Qed.
Lemma contract_ok : forall a, wf a -> match ainit a with
    | IFull l => Forall (fun e => exists v, e = EVal v) l
    | ISparse l => Forall (fun p => exists v, snd p = EVal v) l
    | IZero => True end -> contract a = Some (map byte_of (elements a)).
Proof.
  intros [n x] [N W] S. cbn [alen ainit] in *. unfold contract. cbn [alen ainit]. destruct (n <=? 0) eqn:E; [lia|]. destruct x as [|x|x].
  - rewrite elements_zero, map_byte_zeros. reflexivity.
  - rewrite contract_full_ok by auto. rewrite elements_wf_full by auto. unfold vlen. rewrite map_length, W. rewrite Z.leb_refl, Z.sub_diag. cbn [Z.to_nat repeat]. rewrite app_nil_r. reflexivity.
  - destruct W as [W1 W2]. rewrite <- map_byte_zeros. rewrite contract_sparse_fill by auto. pose proof (fill_zeros x [] n W2 ltac:(lia)) as F. cbn [app] in F. change (vlen (@nil Elem)) with 0 in F. rewrite F. reflexivity.
Qed.
Lemma contract_const_ok : forall c l, wf_const c -> scalars c -> items c = Some l -> contract_const c = Some (map byte_of l).
Proof.
  intros [| [a|] | a | | u |] l W S E; cbn [scalars items wf_const contract_const] in *; try contradiction; injection E as <-; try (apply contract_ok; auto). reflexivity.
Qed.
