(** Lemmas about constant lists: slices, elements, designators, $foreach, emitted constants. *)
From Coq Require Import ZArith List Bool Lia ZifyBool.
From Verif Require LexSpec.
From Verif Require Import ConstArrModel ConstArrSpec ConstArrProofs.
Import ListNotations.
Open Scope Z_scope.

(** ** Slices. *)
Lemma slice_list_ok : forall A (l : list A) s n, 0 <= s -> 0 <= n -> s + n <= Z.of_nat (length l) -> slice_list l s n = Some (part l s n).
Proof. intros. unfold slice_list, vlen. destruct (_ || _) eqn:E; [lia|]. reflexivity. Qed.
Lemma part_map : forall A B (f : A -> B) l s n, part (map f l) s n = map f (part l s n).
Proof. intros. unfold part. rewrite skipn_map, firstn_map. reflexivity. Qed.
Lemma part_length : forall A (l : list A) s n, 0 <= s -> 0 <= n -> s + n <= Z.of_nat (length l) -> length (part l s n) = Z.to_nat n.
Proof. intros. unfold part. rewrite firstn_length, skipn_length. lia. Qed.
Lemma skipn_repeat : forall A (x : A) k n, skipn k (repeat x n) = repeat x (n - k).
Proof. induction k as [|k IH]; intros [|n]; cbn; auto. Qed.
Lemma firstn_repeat : forall A (x : A) k n, firstn k (repeat x n) = repeat x (min k n).
Proof. induction k as [|k IH]; intros [|n]; cbn; auto. f_equal; auto. Qed.
Lemma slice_initializer_ok : forall a s n, wf a -> match ainit a with ISparse _ => s = 0 | _ => True end -> 0 <= s -> 0 <= n -> s + n <= alen a ->
  exists c, slice_initializer a s n = Ok c /\ wf_const c /\ items c = Some (part (elements a) s n).
Proof.
  intros [m x] s n [M W] P S N B. cbn [alen ainit] in *. unfold slice_initializer. cbn [alen ainit]. destruct (n =? 0) eqn:E.
  { assert (n = 0) by lia. subst n. eexists. split; [reflexivity|]. split; [exact I|]. reflexivity. }
  destruct x as [|x|x].
  - eexists. split; [reflexivity|]. split; [split; cbn; auto; lia|]. cbn [items]. rewrite !elements_zero. unfold part, zeros. rewrite skipn_repeat, firstn_repeat. do 2 f_equal. lia.
  - rewrite slice_list_ok by lia. eexists. split; [reflexivity|]. pose proof (part_length _ x s n S N ltac:(lia)) as L. split; [split; cbn [alen ainit]; lia|].
    cbn [items]. rewrite elements_wf_full by lia. rewrite elements_wf_full by auto. reflexivity.
  - subst s. destruct W as [W1 W2]. set (k := filter _ x).
    assert (K : forall i, 0 <= i < n -> look k i = look x i).
    { intros i I. unfold k. clear - I. induction x as [|[j e] x IH]; [reflexivity|]. cbn [filter fst]. destruct ((0 <=? j) && (j <? 0 + n)) eqn:Q; rewrite ?look_cons; destruct (j =? i) eqn:E; try lia; try apply IH; reflexivity. }
    assert (G : increasing 0 n k).
    { unfold k. clear - W2. assert (J : forall f, 0 <= f -> increasing f m x -> increasing f n (filter (fun p => (0 <=? fst p) && (fst p <? 0 + n)) x)); [|apply J; auto; lia]. clear W2.
      induction x as [|[j e] x IH]; intros f F H; [exact I|]. cbn [increasing] in H. destruct H as [H1 H2]. cbn [filter fst].
      destruct ((0 <=? j) && (j <? 0 + n)) eqn:Q; [cbn [increasing]; split; [lia|apply IH; auto; lia]|]. apply (increasing_weaken _ (j + 1) f n n); try lia. apply IH; auto; lia. }
    assert (V : forall k0, k = k0 -> elements (mkArr n match k0 with [] => IZero | _ => ISparse k0 end) = part (elements (mkArr m (ISparse x))) 0 n).
    { intros k0 <-. transitivity (elements (mkArr n (ISparse x))).
      - apply elements_ext. intros i I. rewrite value_sparse, <- K by auto. destruct k; reflexivity.
      - replace m with (n + (m - n)) by lia. rewrite (elements_app n (m - n) (ISparse x) (ISparse x) (ISparse (shift (- n) x))); try lia; auto.
        + unfold part. cbn [Z.to_nat skipn]. rewrite firstn_app, elements_length. cbn [alen]. rewrite Nat.sub_diag. cbn [firstn]. rewrite app_nil_r. symmetry. apply firstn_all2. rewrite elements_length. cbn [alen]. lia.
        + intros i I. rewrite !value_sparse. rewrite <- (look_shift x (- n) (n + i)). f_equal. lia. }
    eexists. split; [reflexivity|]. split.
    + split; cbn [alen ainit]; [lia|]. destruct k eqn:Ek; [exact I|]. split; [discriminate|]. exact G.
    + cbn [items]. rewrite (V k eq_refl). reflexivity.
Qed.
Lemma range_sound : forall len start back e s n, 0 <= len -> range len start back e = Ok (Some (s, n)) -> range_means len start back e s n /\ 0 <= s < len /\ 0 <= n <= len.
Proof.
  intros len start back e s n L H. unfold range in H. unfold range_means.
  destruct e as [|z|z|z|z]; cbn [obind] in H.
  - destruct (0 <? len) eqn:E1; cbn [obind] in H; destruct back; [destruct ((start <? 0) || (len - start <? 0)) eqn:E2; [discriminate|]|..|destruct ((start <? 0) || (len - start <? 0)) eqn:E2; [discriminate|]|]; cbn [obind] in H;
      destruct (_ <? 0) eqn:E3 in H; try discriminate; destruct (len <=? _) eqn:E4 in H; try discriminate;
      destruct (negb false && _) eqn:E5 in H; try discriminate; cbv zeta in H; destruct (len <? _) eqn:E6 in H; try discriminate; injection H as <- <-; lia.
  - destruct (z <? 0) eqn:E0; [discriminate|]. cbn [obind] in H. destruct (max_index <? z) eqn:E1; destruct back; try (destruct ((start <? 0) || (len - start <? 0)) eqn:E2; [discriminate|]); cbn [obind] in H;
      destruct (_ <? 0) eqn:E3 in H; try discriminate; destruct (len <=? _) eqn:E4 in H; try discriminate;
      destruct (negb false && _) eqn:E5 in H; try discriminate; cbv zeta in H; destruct (len <? _) eqn:E6 in H; try discriminate; injection H as <- <-; lia.
  - destruct ((z <? 0) || (len - z <? 0)) eqn:E0; [discriminate|]. cbn [obind] in H. destruct back; try (destruct ((start <? 0) || (len - start <? 0)) eqn:E2; [discriminate|]); cbn [obind] in H;
      destruct (_ <? 0) eqn:E3 in H; try discriminate; destruct (len <=? _) eqn:E4 in H; try discriminate;
      destruct (negb false && _) eqn:E5 in H; try discriminate; cbv zeta in H; destruct (len <? _) eqn:E6 in H; try discriminate; injection H as <- <-; lia.
  - destruct (z <? 0) eqn:E0; [discriminate|]. cbn [obind] in H. destruct (max_index <? z) eqn:E1; destruct back; try (destruct ((start <? 0) || (len - start <? 0)) eqn:E2; [discriminate|]); cbn [obind] in H;
      destruct (_ <? 0) eqn:E3 in H; try discriminate; destruct (len <=? _) eqn:E4 in H; try discriminate;
      cbn [negb andb] in H; cbv zeta in H; destruct (len <? _) eqn:E6 in H; try discriminate; injection H as <- <-; lia.
  - destruct ((z <? 0) || (len - z <? 0)) eqn:E0; [discriminate|]. cbn [obind] in H. destruct back; try (destruct ((start <? 0) || (len - start <? 0)) eqn:E2; [discriminate|]); cbn [obind] in H;
      destruct (_ <? 0) eqn:E3 in H; try discriminate; destruct (len <=? _) eqn:E4 in H; try discriminate;
      cbn [negb andb] in H; cbv zeta in H; destruct (len <? _) eqn:E6 in H; try discriminate; injection H as <- <-; lia.
Qed.
(** Every range inside the list with at least one element, or of no length before its end, is accepted. *)
Lemma range_complete : forall len start back e s n, 0 <= len <= max_index -> range_means len start back e s n -> 0 <= start ->
  match e with NoEnd => True | EndAt z | EndBack z | Length z | LengthBack z => 0 <= z end ->
  0 <= s < len -> (match e with Length _ | LengthBack _ => 0 <= n | _ => 0 < n end) -> s + n <= len -> range len start back e = Ok (Some (s, n)).
Proof.
  intros len start back e s n L [M1 M2] S Z0 B N T. unfold range, max_index in *.
  destruct e as [|z|z|z|z]; subst n.
  - replace (0 <? len) with true by lia. cbn [obind]. destruct back; [replace ((start <? 0) || (len - start <? 0)) with false by lia|]; cbn [obind]; subst s.
    all: repeat (match goal with |- context [if ?b then _ else _] => first [replace b with false by lia | replace b with true by lia] end); do 3 f_equal; lia.
  - replace (z <? 0) with false by lia. cbn [obind]. replace (2147483647 <? z) with false by lia. destruct back; [replace ((start <? 0) || (len - start <? 0)) with false by lia|]; cbn [obind]; subst s.
    all: repeat (match goal with |- context [if ?b then _ else _] => first [replace b with false by lia | replace b with true by lia] end); do 3 f_equal; lia.
  - replace ((z <? 0) || (len - z <? 0)) with false by lia. cbn [obind]. destruct back; [replace ((start <? 0) || (len - start <? 0)) with false by lia|]; cbn [obind]; subst s.
    all: repeat (match goal with |- context [if ?b then _ else _] => first [replace b with false by lia | replace b with true by lia] end); do 3 f_equal; lia.
  - replace (z <? 0) with false by lia. cbn [obind]. replace (2147483647 <? z) with false by lia. destruct back; [replace ((start <? 0) || (len - start <? 0)) with false by lia|]; cbn [obind]; subst s.
    all: repeat (match goal with |- context [if ?b then _ else _] => first [replace b with false by lia | replace b with true by lia] end); do 3 f_equal; lia.
  - replace ((z <? 0) || (len - z <? 0)) with false by lia. cbn [obind]. destruct back; [replace ((start <? 0) || (len - start <? 0)) with false by lia|]; cbn [obind]; subst s.
    all: repeat (match goal with |- context [if ?b then _ else _] => first [replace b with false by lia | replace b with true by lia] end); do 3 f_equal; lia.
Qed.

(** ** Elements. *)
Lemma nth_error_nth' : forall A (l : list A) k d, (k < length l)%nat -> nth_error l k = Some (nth k l d).
Proof. intros. apply nth_error_nth'. auto. Qed.
Lemma fold_to_index_ok : forall a i, wf a -> 0 <= i < alen a -> fold_to_index a i = Ok (value_at (ainit a) i).
Proof.
  intros [n x] i [N W] I. cbn [alen ainit] in *. unfold fold_to_index. cbn [ainit]. destruct x as [|x|x]; cbn [value_at]; [reflexivity| |].
  - unfold at_. destruct (i <? 0) eqn:E; [lia|]. rewrite (nth_error_nth' _ x _ EZero) by lia. reflexivity.
  - destruct (find _ x); reflexivity.
Qed.
Lemma at_index_ok : forall a i (back : bool), wf a -> (if back then 0 < i <= alen a else 0 <= i < alen a) ->
  at_index a i back = Ok (match value_at (ainit a) (if back then alen a - i else i) with EAgg _ => None | e => Some e end).
Proof.
  intros [n x] i back [N W] I. cbn [alen ainit] in *. unfold at_index. cbn [alen ainit]. destruct x as [|x|x]; cbn [value_at]; [reflexivity| |].
  - unfold vlen. rewrite W. replace (back && ((n <? i) || (i =? 0))) with false by (destruct back; lia). set (j := if back then n - i else i). assert (J : 0 <= j < n) by (unfold j; destruct back; lia).
    unfold at_. destruct (j <? 0) eqn:E; [lia|]. rewrite (nth_error_nth' _ x _ EZero) by lia. destruct (nth _ x EZero); reflexivity.
  - replace (back && ((n <? i) || (i =? 0))) with false by (destruct back; lia). set (j := if back then n - i else i). destruct (find _ x) as [[k e]|]; cbn [snd]; [destruct e; reflexivity|reflexivity].
Qed.
Lemma index_check_small : forall len i (back : bool), 0 <= len < 2147483648 -> -2147483648 <= i < 2147483648 ->
  index_check len i back = (if if back then (0 <? i) && (i <=? len) else (0 <=? i) && (i <? len) then Ok (if back then len - i else i) else Error).
Proof.
  intros len i back L I. unfold index_check. assert (T : forall z, -2147483648 <= z < 2147483648 -> to_i32 z = z).
  { intros z Z. unfold to_i32. destruct (Z.lt_ge_cases z 0) as [Q|Q].
    - replace (z mod 4294967296) with (z + 4294967296) by (symmetry; rewrite <- (Z.mod_add z 1) by lia; rewrite Z.mul_1_l; apply Z.mod_small; lia). cbv zeta. destruct (_ <? _) eqn:E; lia.
    - rewrite Z.mod_small by lia. cbv zeta. destruct (_ <? _) eqn:E; lia. }
  destruct (_ || _) eqn:E0; [lia|]. destruct back; cbn [andb].
  - destruct (i <? 0) eqn:E1; [replace (0 <? i) with false by lia; reflexivity|]. cbv zeta. rewrite (T i) by lia. rewrite (T (len - i)) by lia.
    destruct (len <=? len - i) eqn:E2; [replace (0 <? i) with false by lia; reflexivity|]. destruct (len - i <? 0) eqn:E3; [replace (i <=? len) with false by lia; rewrite andb_false_r; reflexivity|].
    replace ((0 <? i) && (i <=? len)) with true by lia. reflexivity.
  - cbv zeta. rewrite (T i) by lia. destruct (len <=? i) eqn:E2; [replace (i <? len) with false by lia; rewrite andb_false_r; reflexivity|]. destruct (i <? 0) eqn:E3; [replace (0 <=? i) with false by lia; reflexivity|].
    replace ((0 <=? i) && (i <? len)) with true by lia. reflexivity.
Qed.
Lemma insert_at_look : forall l i e j f n, increasing f n l -> look (insert_at l i e) j = if j =? i then e else look l j.
Proof.
  induction l as [|[k x] l IH]; intros i e j f n H; cbn [insert_at].
  - rewrite look_cons. destruct (i =? j) eqn:E, (j =? i) eqn:Q; auto; lia.
  - cbn [increasing] in H. destruct H as [H1 H2]. destruct (k <? i) eqn:E1; [|destruct (k =? i) eqn:E2].
    + rewrite look_cons, (IH _ _ _ _ _ H2), look_cons. destruct (k =? j) eqn:Q, (j =? i) eqn:R; auto; lia.
    + rewrite !look_cons. destruct (i =? j) eqn:Q, (j =? i) eqn:R, (k =? j) eqn:T; auto; lia.
    + rewrite !look_cons. destruct (i =? j) eqn:Q, (j =? i) eqn:R; auto; lia.
Qed.
Lemma insert_at_increasing : forall l i e f n, increasing f n l -> f <= i < n -> increasing f n (insert_at l i e).
Proof.
  induction l as [|[k x] l IH]; intros i e f n H I; cbn [insert_at increasing] in *; [split; [lia|auto]|]. destruct H as [H1 H2]. destruct (k <? i) eqn:E1; [|destruct (k =? i) eqn:E2]; cbn [increasing].
  - split; [lia|]. apply IH; auto. lia.
  - split; [lia|]. replace (i + 1) with (k + 1) by lia. auto.
  - split; [lia|]. split; [lia|]. auto.
Qed.
Lemma rewrite_at_ok : forall a i e, wf a -> 0 <= i < alen a -> exists a', rewrite_at a i e = Ok a' /\ alen a' = alen a /\ wf a' /\
  forall j, 0 <= j < alen a -> value_at (ainit a') j = if j =? i then e else value_at (ainit a) j.
Proof.
  intros [n x] i e [N W] I. cbn [alen ainit] in *. unfold rewrite_at. cbn [alen ainit]. destruct x as [|x|x].
  - eexists. split; [reflexivity|]. split; [reflexivity|]. split; [split; cbn; [lia|split; [discriminate|split; [lia|auto]]]|]. intros j J. cbn [ainit insert_at]. rewrite value_sparse, look_cons. destruct (i =? j) eqn:E, (j =? i) eqn:Q; auto; lia.
  - destruct (set_at_some _ x i e EZero) as (l & E & L & K); [unfold vlen; lia|]. rewrite E. eexists. split; [reflexivity|]. split; [reflexivity|]. split; [split; cbn [alen ainit]; lia|].
    intros j J. cbn [ainit value_at]. rewrite K. destruct (Nat.eqb (Z.to_nat j) (Z.to_nat i)) eqn:Q, (j =? i) eqn:R; auto; [apply Nat.eqb_eq in Q|apply Nat.eqb_neq in Q]; lia.
  - destruct W as [W1 W2]. eexists. split; [reflexivity|]. split; [reflexivity|]. split.
    + split; cbn [alen ainit]; [lia|]. split; [destruct x as [|[k y] x]; [congruence|cbn [insert_at]; destruct (k <? i), (k =? i); discriminate]|]. apply insert_at_increasing; auto.
    + intros j J. cbn [ainit]. rewrite !value_sparse. apply (insert_at_look _ _ _ _ 0 n); auto.
Qed.
Lemma list_update : forall A (d e : A) l l' i, length l' = length l -> (i < length l)%nat -> (forall k, (k < length l)%nat -> nth k l' d = if Nat.eqb k i then e else nth k l d) ->
  l' = firstn i l ++ e :: skipn (S i) l.
Proof.
  intros A d e. induction l as [|x l IH]; intros [|y l'] i L I H; cbn [length] in *; try lia. pose proof (H 0%nat ltac:(lia)) as H0. destruct i as [|i]; cbn [nth Nat.eqb] in H0; subst y.
  - cbn [firstn app skipn]. f_equal. apply (list_eq_nth _ _ _ d); [lia|]. intros k K. exact (H (S k) ltac:(lia)).
  - cbn [firstn app skipn]. f_equal. apply IH; try lia. intros k K. exact (H (S k) ltac:(lia)).
Qed.
Lemma set_list_elements : forall a a' i e, alen a' = alen a -> 0 <= i < alen a -> (forall j, 0 <= j < alen a -> value_at (ainit a') j = if j =? i then e else value_at (ainit a) j) ->
  elements a' = firstn (Z.to_nat i) (elements a) ++ e :: skipn (S (Z.to_nat i)) (elements a).
Proof.
  intros a a' i e L I H. apply (list_update _ EZero); rewrite ?elements_length, ?L; [reflexivity|lia|]. intros k K. rewrite !elements_nth by lia. rewrite H by lia.
  destruct (Z.of_nat k =? i) eqn:E, (Nat.eqb k (Z.to_nat i)) eqn:Q; auto; [apply Nat.eqb_neq in Q|apply Nat.eqb_eq in Q]; lia.
Qed.
(** ** Designators. *)
Lemma designate_run : forall n low e a, wf a -> 0 <= low -> low + Z.of_nat n <= alen a -> forall k, (k <= n)%nat ->
  exists a', fold_left (fun acc k => obind acc (fun a => rewrite_at a (low + Z.of_nat k) e)) (seq 0 k) (Ok a) = Ok a' /\ alen a' = alen a /\ wf a' /\
    forall j, 0 <= j < alen a -> value_at (ainit a') j = if (low <=? j) && (j <? low + Z.of_nat k) then e else value_at (ainit a) j.
Proof.
  intros n low e a W L B. induction k as [|k IH]; intros K.
  - exists a. split; [reflexivity|]. split; [reflexivity|]. split; [exact W|]. intros j J. destruct (_ && _) eqn:E; [lia|reflexivity].
  - destruct IH as (a1 & E1 & L1 & W1 & V1); [lia|]. rewrite seq_S, fold_left_app, E1. cbn [fold_left obind Nat.add].
    destruct (rewrite_at_ok a1 (low + Z.of_nat k) e W1 ltac:(lia)) as (a2 & E2 & L2 & W2 & V2). exists a2. split; [exact E2|]. split; [lia|]. split; [exact W2|].
    intros j J. rewrite V2 by lia. rewrite V1 by lia. destruct (j =? low + Z.of_nat k) eqn:Q.
    + destruct (_ && _) eqn:R; [reflexivity|lia].
    + destruct ((low <=? j) && (j <? low + Z.of_nat k)) eqn:R, ((low <=? j) && (j <? low + Z.of_nat (S k))) eqn:T; auto; lia.
Qed.
Lemma designate_ok : forall len l, 0 < len -> Forall (fun d => let '(low, high, e) := d in 0 <= low <= high /\ high < len) l ->
  exists a, designate len l = Ok a /\ alen a = len /\ wf a /\ forall i, 0 <= i < len -> value_at (ainit a) i = designated l i EZero.
Proof.
  intros len l L F. unfold designate.
  assert (G : forall l a, alen a = len -> wf a -> Forall (fun d => let '(low, high, e) := d in 0 <= low <= high /\ high < len) l ->
    exists a', fold_left (fun acc d => let '(low, high, e) := d in
      fold_left (fun acc k => obind acc (fun a => rewrite_at a (low + Z.of_nat k) e)) (seq 0 (Z.to_nat (high - low + 1))) acc) l (Ok a) = Ok a' /\ alen a' = len /\ wf a' /\
      forall i, 0 <= i < len -> value_at (ainit a') i = designated l i (value_at (ainit a) i)).
  { clear l F. induction l as [|[[low high] e] l IH]; intros a LA W F; [exists a; auto|]. inversion F as [|? ? H1 H2]; subst. cbn [fold_left].
    destruct (designate_run (Z.to_nat (high - low + 1)) low e a W ltac:(lia) ltac:(lia) _ (Nat.le_refl _)) as (a1 & E1 & L1 & W1 & V1). rewrite E1.
    destruct (IH a1 L1 W1 H2) as (a2 & E2 & L2 & W2 & V2). exists a2. split; [exact E2|]. split; [exact L2|]. split; [exact W2|]. intros i I. rewrite V2 by auto. cbn [designated]. f_equal. rewrite V1 by lia.
    destruct ((low <=? i) && (i <? _)) eqn:Q, ((low <=? i) && (i <=? high)) eqn:R; auto; lia. }
  apply (G l (mkArr len IZero)); auto. split; cbn; auto.
Qed.
(** ** $foreach. *)
Lemma visit_ok : forall a, wf a -> Forall (fun e => match e with EAgg _ => False | _ => True end) (elements a) -> forall n i, Z.of_nat (i + n) = alen a -> visit a i n = Ok (skipn i (elements a)).
Proof.
  intros a W SC. pose proof (elements_length a) as L. induction n as [|n IH]; intros i E; cbn [visit].
  - rewrite skipn_all2 by lia. reflexivity.
  - rewrite at_index_ok by (auto; lia). cbn [obind]. rewrite <- elements_nth by lia. rewrite IH by lia. cbn [obind].
    assert (I : (i < length (elements a))%nat) by lia. rewrite Forall_forall in SC. specialize (SC _ (nth_In _ EZero I)).
    clear IH.
    assert (Q : skipn i (elements a) = nth i (elements a) EZero :: skipn (S i) (elements a)).
    { clear - I. revert i I. induction (elements a) as [|x l IH]; intros [|i] H; cbn [length] in H; try lia; [reflexivity|]. cbn [skipn nth]. apply IH. lia. }
    rewrite Q. destruct (nth i (elements a) EZero); try contradiction; reflexivity.
Qed.
(** ** The emitted constant. *)
Lemma expand_app : forall p q, expand (p ++ q) = expand p ++ expand q.
Proof. intros. unfold expand. apply flat_map_app. Qed.
Lemma expand_padding : forall d p m, padding d = (p, m) -> expand p = zeros d.
Proof.
  intros d p m H. unfold padding in H. destruct (d <=? 0) eqn:E; [injection H as <- <-; unfold zeros; replace (Z.to_nat d) with 0%nat by lia; reflexivity|].
  destruct (d =? 1) eqn:Q; injection H as <- <-; [replace d with 1 by lia; reflexivity|]. cbn. apply app_nil_r.
Qed.
Lemma expand_elems : forall l, expand (map PElem l) = l.
Proof. induction l as [|x l IH]; [reflexivity|]. cbn. f_equal. exact IH. Qed.
Definition between (l : list (Z * Elem)) (from to : Z) : list Elem := map (fun i => look l (from + i)) (indices (to - from)).
Lemma between_app : forall l a b c, a <= b -> b <= c -> between l a c = between l a b ++ between l b c.
Proof.
  intros l a b c A B. unfold between. replace (c - a) with ((b - a) + (c - b)) by lia. rewrite indices_app, map_app, map_map by lia. f_equal. apply map_ext. intros i. f_equal. lia.
Qed.
Lemma between_zeros : forall l a b, (forall i, a <= i < b -> look l i = EZero) -> between l a b = zeros (b - a).
Proof.
  intros l a b H. rewrite <- elements_zero. unfold between, elements. cbn [alen ainit value_at]. apply map_ext_in. intros i I. apply indices_in in I. apply H. lia.
Qed.
Lemma emit_sparse_ok : forall l f n p m last, increasing f n l -> 0 <= f -> emit_sparse l f = (p, m, last) -> f <= last /\ last <= Z.max f n /\ expand p = between l f last /\ forall i, last <= i -> look l i = EZero.
Proof.
  induction l as [|[i e] l IH]; intros f n p m last H F E.
  - injection E as <- <- <-. split; [lia|]. split; [lia|]. split; [unfold between; rewrite Z.sub_diag; reflexivity|]. reflexivity.
  - cbn [increasing] in H. destruct H as [H1 H2]. cbn [emit_sparse] in E. destruct (padding (i - f)) as [pad m1] eqn:P. destruct (emit_sparse l (i + 1)) as [[rest m2] last2] eqn:R. injection E as <- <- <-.
    destruct (IH _ _ _ _ _ H2 ltac:(lia) R) as (L1 & L2 & X & O). split; [lia|]. split; [lia|]. split.
    + rewrite expand_app, (expand_padding _ _ _ P). change (PElem e :: rest) with ([PElem e] ++ rest). rewrite expand_app, X. rewrite (between_app _ f i last2) by lia. rewrite (between_app _ i (i + 1) last2) by lia.
      f_equal; [|f_equal].
      * symmetry. apply between_zeros. intros j J. rewrite look_cons. destruct (i =? j) eqn:Q; [lia|]. apply (look_outside l (i + 1) n); auto; lia.
      * unfold between. replace (i + 1 - i) with 1 by lia. change (indices 1) with [0]. cbn [map flat_map expand app]. rewrite look_cons. replace (i =? i + 0) with true by lia. reflexivity.
      * unfold between. apply map_ext_in. intros j J. apply indices_in in J. rewrite look_cons. destruct (i =? i + 1 + j) eqn:Q; [lia|reflexivity].
    + intros j J. rewrite look_cons. destruct (i =? j) eqn:Q; [lia|]. apply O; auto.
Qed.
Lemma emit_ok : forall v a, wf a -> exists k p, emit v a = Ok (k, p) /\ expand p = elements a.
Proof.
  intros v [n x] [N W]. cbn [alen ainit] in *. unfold emit. cbn [alen ainit]. destruct x as [|x|x].
  - eexists _, _. split; [reflexivity|]. rewrite elements_zero. cbn. apply app_nil_r.
  - destruct (n <=? 0) eqn:E; [lia|]. rewrite slice_list_ok by lia. eexists _, _. split; [reflexivity|]. rewrite expand_elems, elements_wf_full by auto. unfold part. cbn [Z.to_nat skipn]. apply firstn_all2. lia.
  - destruct W as [W1 W2]. destruct x as [|y x]; [congruence|]. destruct (emit_sparse (y :: x) 0) as [[parts m] last] eqn:E. destruct (padding (n - last)) as [pad m'] eqn:P.
    destruct (emit_sparse_ok _ _ _ _ _ _ W2 ltac:(lia) E) as (L1 & L2 & X & O). eexists _, _. split; [reflexivity|]. rewrite expand_app, X, (expand_padding _ _ _ P).
    rewrite <- (between_zeros (y :: x) last n) by (intros; apply O; lia). rewrite <- between_app by lia. unfold between, elements. cbn [alen ainit]. rewrite Z.sub_0_r. apply map_ext. intros i. reflexivity.
Qed.
(** ** Bytes and whole constants. *)
Lemma lor_high : forall h x k, 0 <= k -> 0 <= x < 2 ^ k -> h mod 2 ^ k = 0 -> Z.lor h x = h + x.
Proof.
  intros h x k K X H. assert (L : Z.land h x = 0).
  { rewrite <- (Z.mod_small x (2 ^ k)) by auto. rewrite <- Z.land_ones by auto. rewrite (Z.land_comm x), Z.land_assoc, Z.land_ones, H by auto. apply Z.land_0_l. }
  rewrite <- Z.lxor_lor by auto. symmetry. apply Z.add_nocarry_lxor. auto.
Qed.
Lemma low6 : forall c, Z.lor 128 (Z.land c 63) = 128 + c mod 64.
Proof.
  intros c. change 63 with (Z.ones 6). rewrite Z.land_ones by lia. change (2 ^ 6) with 64. apply (lor_high 128 (c mod 64) 6); [lia| |reflexivity]. apply Z.mod_pos_bound. lia.
Qed.
Lemma character_utf8 : forall u, 0 <= u <= 1114111 -> character u = LexSpec.utf8 u.
Proof.
  intros u U. unfold character, LexSpec.utf8. rewrite !low6. rewrite !Z.shiftr_div_pow2 by lia. change (2 ^ 6) with 64. change (2 ^ 12) with 4096. change (2 ^ 18) with 262144.
  destruct (u <=? 127) eqn:E1; [rewrite Z.mod_small by lia; reflexivity|].
  destruct (u <=? 2047) eqn:E2.
  { rewrite (lor_high 192 (u / 64) 6), Z.mod_small; try reflexivity; try lia; change (2 ^ 6) with 64; pose proof (Z.div_lt_upper_bound u 64 32); pose proof (Z.div_pos u 64); lia. }
  destruct (u <=? 65535) eqn:E3.
  { rewrite (lor_high 224 (u / 4096) 5), Z.mod_small; try reflexivity; try lia; change (2 ^ 5) with 32; pose proof (Z.div_lt_upper_bound u 4096 16); pose proof (Z.div_pos u 4096); lia. }
  rewrite (lor_high 240 (u / 262144) 4), Z.mod_small; try reflexivity; try lia; change (2 ^ 4) with 16; pose proof (Z.div_lt_upper_bound u 262144 5); pose proof (Z.div_pos u 262144); lia.
Qed.
Lemma string_char : forall a u k, 0 <= u <= 1114111 -> concat (CBytes true a) (CScalar (SInt u)) k = Ok (CBytes true (a ++ LexSpec.utf8 u)).
Proof. intros a u k U. unfold concat, concat_bytes. destruct ((u <? 0) || (1114111 <? u)) eqn:E; [lia|]. rewrite character_utf8 by lia. reflexivity. Qed.
Lemma bytes_list : forall s a right r k rs, match right with CUntyped _ | CSlice _ | CInit _ => True | _ => False end -> as_list k = Some r -> wf_const r -> scalars r -> items r = Some rs ->
  concat (CBytes s a) right k = Ok (CBytes s (a ++ map byte_of rs)).
Proof.
  intros s a right r k rs R E W S I. pose proof (contract_const_ok r rs W S I) as C. unfold concat, concat_bytes. rewrite E. rewrite C. destruct right; try contradiction; destruct r; try contradiction; reflexivity.
Qed.
Lemma list_bytes : forall left s b k ls, match left with CSlice _ | CInit _ => True | _ => False end -> same k = false -> chars k = true -> wf_const left -> scalars left -> items left = Some ls ->
  concat left (CBytes s b) k = Ok (CBytes false (map byte_of ls ++ b)).
Proof.
  intros left s b k ls L E1 E2 W S I. pose proof (contract_const_ok left ls W S I) as C. unfold concat. rewrite E1, E2, C. destruct left; try contradiction; reflexivity.
Qed.
Lemma until_nul_ok : forall b, ~ In 0 b -> until_nul b = b.
Proof. induction b as [|x b IH]; intros H; [reflexivity|]. cbn [until_nul]. destruct (x =? 0) eqn:E; [exfalso; apply H; left; lia|]. f_equal. apply IH. intros Q. apply H. right. auto. Qed.
Lemma part_in : forall A (l : list A) s n x, In x (part l s n) -> In x l.
Proof. intros A l s n x H. unfold part in H. rewrite <- (firstn_skipn (Z.to_nat s) l). apply in_or_app. right. rewrite <- (firstn_skipn (Z.to_nat n) (skipn (Z.to_nat s) l)). apply in_or_app. left. auto. Qed.
Lemma slice_ok : forall c s n l, wf_const c -> match c with CBytes true b => ~ In 0 b | CSlice (Some a) | CInit a => match ainit a with ISparse _ => s = 0 | _ => True end | _ => True end ->
  items c = Some l -> 0 <= s -> 0 <= n -> s + n <= Z.of_nat (length l) ->
  exists c', slice c s n = Ok c' /\ wf_const c' /\ items c' = Some (part l s n).
Proof.
  intros c s n l W P I S N B. destruct c as [[] b | [a|] | a | | u |]; cbn [items wf_const] in *; try discriminate; injection I as <-; rewrite ?map_length, ?elements_length in B; unfold slice.
  - rewrite slice_list_ok by auto. eexists. split; [reflexivity|]. split; [exact I|]. cbn [items]. rewrite part_map, until_nul_ok; auto. intros Q. apply P. apply part_in in Q. auto.
  - rewrite slice_list_ok by auto. eexists. split; [reflexivity|]. split; [exact I|]. cbn [items]. rewrite part_map. reflexivity.
  - apply slice_initializer_ok; auto. destruct W. lia.
  - cbn [length] in B. assert (n = 0) by lia. subst n. eexists. split; [reflexivity|]. split; [exact I|]. reflexivity.
  - apply slice_initializer_ok; auto. destruct W. lia.
  - rewrite slice_list_ok by auto. eexists. split; [reflexivity|]. split; [exact I|]. reflexivity.
Qed.
Lemma foreach_ok : forall c l, wf_const c -> match c with CSlice (Some a) => match ainit a with IFull _ => True | _ => False end | _ => True end ->
  items c = Some l -> Forall (fun e => match e with EAgg _ => False | _ => True end) l -> foreach c = Ok l.
Proof.
  intros c l W P I F. destruct c as [s b | [a|] | a | | u |]; cbn [items wf_const] in *; try discriminate; injection I as <-; unfold foreach; try reflexivity.
  - pose proof W as W0. destruct a as [n x]. destruct W as [W1 W2]. cbn [alen ainit] in *. destruct x; try contradiction. rewrite (visit_ok _ W0 F) by (cbn [alen]; lia). reflexivity.
  - rewrite (visit_ok _ W F) by (destruct W; lia). reflexivity.
Qed.
