(** Lemmas about the hash map model. *)
From Coq Require Import ZArith Bool List Lia ZifyBool Permutation.
From Verif Require Import Mach ListAux MapModel MapSpec.
Import ListNotations.
Open Scope Z_scope.

Lemma rehash_nonneg h : 0 <= h -> 0 <= rehash h.
Proof.
  intros H. unfold rehash. assert (P : forall a b, 0 <= a -> 0 <= b -> 0 <= Z.lxor a b) by (intros; apply Z.lxor_nonneg; lia).
  assert (Q : forall a n, 0 <= a -> 0 <= Z.shiftr a n) by (intros; apply Z.shiftr_nonneg; assumption). repeat (apply P || apply Q); assumption.
Qed.
Lemma index_range h n : 0 <= n <= 31 -> 0 <= index_for h (2 ^ n) < 2 ^ n.
Proof.
  intros Hn. unfold index_for, w32. assert (1 <= 2 ^ n <= 2 ^ 31) by (split; [pose proof (Z.pow_pos_nonneg 2 n); lia|apply Z.pow_le_mono_r; lia]).
  rewrite Z.mod_small by lia. replace (2 ^ n - 1) with (Z.ones n) by (rewrite Z.ones_equiv; lia). rewrite Z.land_ones by lia. apply Z.mod_pos_bound. lia.
Qed.

Section P.
Context {K V : Type}.
Variable eqk : K -> K -> bool.
Variable hash : K -> Z.
Variable thr : Z -> Z.
Hypothesis GH : good_hash eqk hash.
Implicit Types (s : map_ K V) (e : entry K V) (t : list (list (entry K V))) (m : list (K * V)).

Definition placed (c : Z) t : Prop := forall i b e, get t i = Ok b -> In e b -> ehash e = rehash (hash (ekey e)) /\ index_for (ehash e) c = i.
(** The table has a power of two of chains, and every entry is in its chain. *)
Definition tab n t : Prop := 0 <= n <= 31 /\ zlen t = 2 ^ n /\ placed (2 ^ n) t.
Definition rep s m : Prop := Permutation (map pair_of (concat (table s))) m /\ count s = zlen m /\
  ((inited s = true /\ exists n, tab n (table s)) \/ (s = blank)).

Lemma set_split {A} (l : list A) i (x y : A) : get l i = Ok x -> exists a b, l = a ++ x :: b /\ i = zlen a /\ set l i y = Ok (a ++ y :: b).
Proof.
  intros H. apply get_inv in H. destruct H as (Hi & H). destruct (split_at l i Hi) as (a & z & b & -> & <-).
  unfold zlen in H. rewrite Nat2Z.id, nth_error_app2, Nat.sub_diag in H by lia. cbn in H. injection H as ->. exists a, b. split; [reflexivity|]. split; [reflexivity|]. apply set_app. reflexivity.
Qed.
Lemma bucket n t h : tab n t -> exists b, get t (index_for h (zlen t)) = Ok b.
Proof. intros (Hn & Hl & _). rewrite Hl. apply get_ok. rewrite Hl. apply index_range. exact Hn. Qed.
Lemma get_mid {A} (a b : list A) x j : get (a ++ x :: b) j = if j =? zlen a then Ok x else get (a ++ x :: b) j.
Proof. destruct (Z.eqb_spec j (zlen a)); [subst; apply get_app; reflexivity|reflexivity]. Qed.
Lemma get_set_split {A} (a b : list A) x y j : get (a ++ y :: b) j = if j =? zlen a then Ok y else get (a ++ x :: b) j.
Proof.
  assert (E : set (a ++ x :: b) (zlen a) y = Ok (a ++ y :: b)) by (apply set_app; reflexivity). apply (get_set _ _ _ j) in E. exact E.
Qed.
(** Replacing a chain by entries that belong there. *)
Lemma tab_put n a b b' c : tab n (a ++ b :: c) -> (forall e, In e b' -> ehash e = rehash (hash (ekey e)) /\ index_for (ehash e) (2 ^ n) = zlen a) -> tab n (a ++ b' :: c).
Proof.
  intros (Hn & Hl & P) H. split; [exact Hn|]. split; [rewrite zlen_app, zlen_cons in *; exact Hl|].
  intros i d e G I. rewrite (get_set_split a c b b' i) in G. destruct (Z.eqb_spec i (zlen a)).
  - injection G as <-. subst i. apply H. exact I.
  - apply (P i d e G I).
Qed.
Lemma tab_in n a b c e : tab n (a ++ b :: c) -> In e b -> ehash e = rehash (hash (ekey e)) /\ index_for (ehash e) (2 ^ n) = zlen a.
Proof. intros (_ & _ & P) I. apply (P (zlen a) b e); [apply get_app; reflexivity|exact I]. Qed.
Lemma in_concat_get t e : In e (concat t) -> exists i b, get t i = Ok b /\ In e b.
Proof.
  intros I. apply in_concat in I. destruct I as (b & Hb & I). apply in_split in Hb. destruct Hb as (x & y & ->). exists (zlen x), b. split; [apply get_app; reflexivity|exact I].
Qed.
(** A key without a hit in its chain is nowhere in the map. *)
Lemma miss n t m k b : tab n t -> Permutation (map pair_of (concat t)) m -> get t (index_for (rehash (hash k)) (zlen t)) = Ok b ->
  (forall e, In e b -> hit eqk (rehash (hash k)) k e = false) -> absent eqk k m.
Proof.
  intros T Pm G H k' v I. apply (Permutation_in _ (Permutation_sym Pm)) in I. apply in_map_iff in I. destruct I as (e & E & I). injection E as <- <-.
  destruct (eqk k (ekey e)) eqn:Q; [|reflexivity]. apply in_concat_get in I. destruct I as (i & d & Gi & I). destruct T as (Hn & Hl & P).
  destruct (P i d e Gi I) as (Hh & Hi). assert (Hk : ehash e = rehash (hash k)) by (rewrite Hh; f_equal; symmetry; apply GH; exact Q).
  rewrite Hk in Hi. rewrite Hl, Hi in G. rewrite Gi in G. injection G as <-. specialize (H e I). unfold hit in H. rewrite Hk, Z.eqb_refl, Q in H. discriminate.
Qed.
Lemma perm_mid {B} (f : entry K V -> B) a c x e y : Permutation (map f (concat (a ++ (x ++ e :: y) :: c))) (f e :: map f (concat (a ++ (x ++ y) :: c))).
Proof.
  rewrite !concat_app. cbn [concat]. change (f e :: map f (concat a ++ (x ++ y) ++ concat c)) with (map f (e :: concat a ++ (x ++ y) ++ concat c)). apply Permutation_map.
  replace (concat a ++ (x ++ e :: y) ++ concat c) with ((concat a ++ x) ++ e :: (y ++ concat c)) by (rewrite <- !app_assoc; reflexivity).
  replace (concat a ++ (x ++ y) ++ concat c) with ((concat a ++ x) ++ (y ++ concat c)) by (rewrite <- !app_assoc; reflexivity).
  symmetry. apply Permutation_middle.
Qed.
Lemma find_split {A} (p : A -> bool) (l : list A) (e : A) : find p l = Some e -> exists a b, l = a ++ e :: b /\ p e = true.
Proof. intros H. apply find_some in H. destruct H as (I & H). apply in_split in I. destruct I as (a & b & ->). eauto. Qed.
Lemma hit_key h k e : hit eqk h k e = true -> eqk k (ekey e) = true. Proof. unfold hit. intros H. apply andb_true_iff in H. apply H. Qed.

Lemma rep_tab s m : rep s m -> count s <> 0 -> exists n, tab n (table s).
Proof. intros (_ & _ & [(_ & T)|E]) H; [exact T|]. subst s. cbn in H. congruence. Qed.
Lemma rep_empty s m : rep s m -> count s = 0 -> m = [].
Proof. intros (_ & E & _) H. destruct m; [reflexivity|]. rewrite zlen_cons in E. pose proof (zlen_nonneg m). lia. Qed.
Lemma get_ref_ok s m k : rep s m -> exists o, get_ref eqk hash s k = Ok o /\
  match o with Some v => exists k' r, has eqk k k' v m r | None => absent eqk k m end.
Proof.
  intros R. unfold get_ref. destruct (Z.eqb_spec (count s) 0) as [e|e].
  - exists None. split; [reflexivity|]. rewrite (rep_empty _ _ R e). intros k' v [].
  - destruct (rep_tab s m R e) as (n & T). destruct (bucket n (table s) (rehash (hash k)) T) as (b & Gb). rewrite Gb. cbn [bind]. eexists. split; [reflexivity|].
    destruct (find (hit eqk (rehash (hash k)) k) b) as [x|] eqn:F; cbn [option_map].
    + destruct (find_split _ _ _ F) as (b1 & b2 & Eb & Hx). subst b. destruct (set_split (table s) _ _ [] Gb) as (a & c & Et & _ & _).
      exists (ekey x), (map pair_of (concat (a ++ (b1 ++ b2) :: c))). split; [|apply (hit_key _ _ _ Hx)]. destruct R as (Pm & _). rewrite <- Pm, Et. apply (perm_mid pair_of).
    + apply (miss n (table s) m k b T); [apply R|exact Gb|]. intros x I. apply (find_none _ _ F x I).
Qed.
Lemma replace_first_spec h k v b : match replace_first eqk h k v b with
  | Some b' => exists b1 e b2, b = b1 ++ e :: b2 /\ hit eqk h k e = true /\ b' = b1 ++ ent (ehash e) (ekey e) v :: b2
  | None => forall e, In e b -> hit eqk h k e = false end.
Proof.
  induction b as [|e b IH]; [intros e []|]. cbn [replace_first]. destruct (hit eqk h k e) eqn:H.
  - exists [], e, b. auto.
  - destruct (replace_first eqk h k v b) as [b'|]; cbn [option_map].
    + destruct IH as (b1 & x & b2 & -> & Hx & ->). exists (e :: b1), x, b2. auto.
    + intros x [<-|I]; auto.
Qed.
Lemma remove_first_spec h k b : match remove_first eqk h k b with
  | Some b' => exists b1 e b2, b = b1 ++ e :: b2 /\ hit eqk h k e = true /\ b' = b1 ++ b2
  | None => forall e, In e b -> hit eqk h k e = false end.
Proof.
  induction b as [|e b IH]; [intros e []|]. cbn [remove_first]. destruct (hit eqk h k e) eqn:H.
  - exists [], e, b. auto.
  - destruct (remove_first eqk h k b) as [b'|]; cbn [option_map].
    + destruct IH as (b1 & x & b2 & -> & Hx & ->). exists (e :: b1), x, b2. auto.
    + intros x [<-|I]; auto.
Qed.
Lemma perm_cons_bucket {B} (f : entry K V -> B) a e b c : Permutation (map f (concat (a ++ (e :: b) :: c))) (f e :: map f (concat (a ++ b :: c))).
Proof. apply (perm_mid f a c [] e b). Qed.

(** *** Resizing *)
Lemma transfer_entry_ok n t e : tab n t -> ehash e = rehash (hash (ekey e)) -> exists t', transfer_entry t e = Ok t' /\ tab n t' /\ Permutation (concat t') (e :: concat t).
Proof.
  intros T He. unfold transfer_entry. destruct (bucket n t (ehash e) T) as (b & Gb). rewrite Gb. cbn [bind].
  destruct (set_split t _ _ (e :: b) Gb) as (a & c & -> & Hi & ->). eexists. split; [reflexivity|]. destruct T as (Hn & Hl & P). split.
  - apply (tab_put n a b); [repeat split; assumption || apply Hn || idtac|].
    + apply (P i b0 e0); assumption.
    + apply (P i b0 e0); assumption.
    + intros x [<-|I]; [split; [exact He|]; rewrite <- Hl; exact Hi|]. apply (P (zlen a) b x); [apply get_app; reflexivity|exact I].
  - assert (X := perm_cons_bucket (fun x => x) a e b c). rewrite !map_id in X. exact X.
Qed.
Lemma transfer_chain_ok n : forall es t, tab n t -> (forall e, In e es -> ehash e = rehash (hash (ekey e))) ->
  exists t', transfer_chain es t = Ok t' /\ tab n t' /\ Permutation (concat t') (es ++ concat t).
Proof.
  induction es as [|e es IH]; intros t T H; [exists t; auto|]. cbn [transfer_chain].
  destruct (transfer_entry_ok n t e T (H e (or_introl eq_refl))) as (t1 & -> & T1 & P1). cbn [bind].
  destruct (IH t1 T1) as (t2 & E & T2 & P2). { intros x I. apply H. right. exact I. }
  exists t2. split; [exact E|]. split; [exact T2|]. rewrite P2, P1. symmetry. apply Permutation_middle.
Qed.
Lemma transfer_ok n : forall src t, tab n t -> (forall e, In e (concat src) -> ehash e = rehash (hash (ekey e))) ->
  exists t', transfer src t = Ok t' /\ tab n t' /\ Permutation (concat t') (concat src ++ concat t).
Proof.
  induction src as [|b src IH]; intros t T H; [exists t; auto|]. cbn [transfer concat] in *.
  destruct (transfer_chain_ok n b t T) as (t1 & -> & T1 & P1). { intros e I. apply H. apply in_or_app. left. exact I. } cbn [bind].
  destruct (IH t1 T1) as (t2 & E & T2 & P2). { intros e I. apply H. apply in_or_app. right. exact I. }
  exists t2. split; [exact E|]. split; [exact T2|]. rewrite P2, P1. rewrite app_assoc. rewrite (Permutation_app_comm (concat src) b). rewrite <- app_assoc. apply Permutation_refl.
Qed.
Lemma get_repeat {A} (x : A) n i y : get (repeat x n) i = Ok y -> y = x.
Proof. intros H. apply get_inv in H. destruct H as (_ & H). apply nth_error_In in H. apply repeat_spec in H. exact H. Qed.
Lemma concat_repeat {A} n : concat (repeat (@nil A) n) = [].
Proof. induction n; [reflexivity|exact IHn]. Qed.
Lemma tab_empty n : 0 <= n <= 31 -> tab n (repeat [] (Z.to_nat (2 ^ n))).
Proof.
  intros H. split; [exact H|]. split.
  - unfold zlen. rewrite repeat_length. pose proof (Z.pow_nonneg 2 n). lia.
  - intros i b e G I. apply get_repeat in G. subst b. destruct I.
Qed.
Lemma resize_ok s n : tab n (table s) -> exists s', resize thr s (w32 (zlen (table s) * 2)) = Ok s' /\ (exists n', tab n' (table s')) /\
  Permutation (concat (table s')) (concat (table s)) /\ count s' = count s /\ inited s' = inited s.
Proof.
  intros T. unfold resize. pose proof T as (Hn & Hl & P). rewrite Hl. unfold MAXIMUM_CAPACITY. destruct (Z.eqb_spec (2 ^ n) (2 ^ 31)) as [e|e].
  - eexists. split; [reflexivity|]. cbn [table count inited]. eauto.
  - assert (n < 31). { destruct (Z.eq_dec n 31); [subst; congruence|lia]. }
    assert (E2 : 2 ^ n * 2 = 2 ^ (n + 1)) by (rewrite Z.pow_add_r by lia; reflexivity).
    assert (2 ^ (n + 1) <= 2 ^ 31) by (apply Z.pow_le_mono_r; lia). pose proof (Z.pow_nonneg 2 n). unfold w32. rewrite Z.mod_small by lia. rewrite E2.
    destruct (transfer_ok (n + 1) (table s) _ (tab_empty (n + 1) ltac:(lia))) as (t' & -> & T' & P').
    { intros x I. apply in_concat_get in I. destruct I as (i & b & G & I). apply (P i b x G I). }
    cbn [bind]. eexists. split; [reflexivity|]. cbn [table count inited]. rewrite concat_repeat, app_nil_r in P'. eauto.
Qed.
Lemma add_entry_ok s m n k v : tab n (table s) -> inited s = true -> Permutation (map pair_of (concat (table s))) m -> count s = zlen m -> zlen m + 1 < 2 ^ 32 ->
  exists s', add_entry thr s (rehash (hash k)) k v (index_for (rehash (hash k)) (zlen (table s))) = Ok s' /\ rep s' ((k, v) :: m).
Proof.
  intros T In_ Pm Hc Hb. unfold add_entry. destruct (bucket n (table s) (rehash (hash k)) T) as (b & Gb). rewrite Gb. cbn [bind].
  destruct (set_split (table s) _ _ (ent (rehash (hash k)) k v :: b) Gb) as (a & c & Et & Hi & ->). cbn [bind threshold table].
  set (t' := a ++ _ :: c). assert (T' : tab n t').
  { subst t'. rewrite Et in T. apply (tab_put n a b); [exact T|]. intros x [<-|I].
    - cbn [ehash ekey]. split; [reflexivity|]. destruct T as (_ & Hl & _). rewrite Et, Hl in Hi. exact Hi.
    - apply (tab_in n a b c x T I). }
  assert (P' : Permutation (map pair_of (concat t')) ((k, v) :: m)).
  { subst t'. rewrite perm_cons_bucket. rewrite <- Et, Pm. apply Permutation_refl. }
  pose proof (zlen_nonneg m). set (s1 := mkmap t' _ _ _). assert (C1 : count s1 = zlen ((k, v) :: m)).
  { subst s1. cbn [count]. unfold w32. rewrite Hc, zlen_cons, Z.mod_small by lia. lia. }
  destruct (threshold s <=? count s).
  - change (zlen t') with (zlen (table s1)). destruct (resize_ok s1 n T') as (s' & -> & T2 & P2 & C2 & I2). exists s'. split; [reflexivity|].
    split; [rewrite (Permutation_map pair_of P2); exact P'|]. split; [rewrite C2; exact C1|]. left. rewrite I2. split; [exact In_|exact T2].
  - exists s1. split; [reflexivity|]. split; [exact P'|]. split; [exact C1|]. left. split; [exact In_|eauto].
Qed.
Lemma init_16 : exists s, init (K := K) (V := V) thr blank 16 = Ok s /\ rep s [] /\ inited s = true.
Proof.
  eexists. split; [reflexivity|]. split; [|reflexivity]. split; [apply Permutation_refl|]. split; [reflexivity|]. left. split; [reflexivity|].
  exists 4. apply (tab_empty 4). lia.
Qed.
Lemma np2_ok fuel : forall k x, 0 <= k <= 31 -> x <= 2 ^ 31 -> 31 - k < Z.of_nat fuel -> exists n, np2 fuel (2 ^ k) x = Ok (2 ^ n) /\ 0 <= n <= 31 /\ x <= 2 ^ n.
Proof.
  induction fuel as [|f IH]; intros k x Hk Hx Hf; [lia|]. cbn [np2].
  assert (2 ^ k <= 2 ^ 31) by (apply Z.pow_le_mono_r; lia). pose proof (Z.pow_nonneg 2 k).
  destruct (Z.ltb_spec (2 ^ k) x).
  - assert (k <> 31) by (intros ->; lia). assert (E2 : 2 ^ k + 2 ^ k = 2 ^ (k + 1)) by (rewrite Z.pow_add_r by lia; lia).
    unfold w32. rewrite Z.mod_small by lia. rewrite E2. apply IH; lia.
  - exists k. auto.
Qed.
Lemma init_ok c : 0 < c < 2 ^ 31 -> exists s, init (K := K) (V := V) thr blank c = Ok s /\ rep s [] /\ inited s = true.
Proof.
  intros H. unfold init. unfold MAXIMUM_CAPACITY. cbn [inited blank orb]. replace ((c <=? 0) || (2 ^ 31 <=? c)) with false by lia.
  destruct (np2_ok 40 0 c ltac:(lia) ltac:(lia) ltac:(lia)) as (n & E & Hn & _). change (2 ^ 0) with 1 in E. rewrite E. cbn [bind].
  eexists. split; [reflexivity|]. split; [|reflexivity]. split; [cbn [table]; rewrite concat_repeat; apply Permutation_refl|]. split; [reflexivity|]. left. split; [reflexivity|].
  exists n. apply tab_empty. exact Hn.
Qed.
Lemma set_ok_ s m k v : rep s m -> zlen m + 1 < 2 ^ 32 -> exists x s' m', set_ eqk hash thr s k v = Ok (x, s') /\ rep s' m' /\
  ((x = true /\ exists k' v0 r, has eqk k k' v0 m r /\ m' = (k', v) :: r) \/ (x = false /\ absent eqk k m /\ m' = (k, v) :: m)).
Proof.
  intros R Hb. unfold set_.
  assert (X : exists s1, (if inited s then Ok s else init thr s 16) = Ok s1 /\ rep s1 m /\ inited s1 = true).
  { destruct R as (R1 & R2 & [(R3 & R4)| ->]).
    - rewrite R3. exists s. split; [reflexivity|]. split; [|exact R3]. split; [exact R1|]. split; [exact R2|]. left. auto.
    - cbn [inited blank]. destruct init_16 as (s1 & E & R' & I). exists s1. split; [exact E|]. split; [|exact I].
      cbn in R1. apply Permutation_nil in R1. subst m. exact R'. }
  destruct X as (s1 & -> & (R1 & R2 & R3) & I1). cbn [bind]. destruct R3 as [(_ & n & T)|E]; [|subst s1; discriminate].
  destruct (bucket n (table s1) (rehash (hash k)) T) as (b & Gb). rewrite Gb. cbn [bind].
  assert (Q := replace_first_spec (rehash (hash k)) k v b). destruct (replace_first eqk (rehash (hash k)) k v b) as [b'|].
  - destruct Q as (b1 & x & b2 & Eb & Hx & ->). subst b. destruct (set_split (table s1) _ _ (b1 ++ ent (ehash x) (ekey x) v :: b2) Gb) as (a & c & Et & Hi & ->). cbn [bind].
    exists true. eexists. exists ((ekey x, v) :: map pair_of (concat (a ++ (b1 ++ b2) :: c))). split; [reflexivity|]. split.
    + split; [cbn [table]; apply (perm_mid pair_of a c b1 (ent (ehash x) (ekey x) v) b2)|]. cbn [count inited table]. split.
      * rewrite R2. assert (L := Permutation_length R1). rewrite Et, (Permutation_length (perm_mid pair_of a c b1 x b2)) in L.
        unfold zlen. rewrite <- L. reflexivity.
      * left. split; [exact I1|]. exists n. rewrite Et in T. apply (tab_put n a (b1 ++ x :: b2)); [exact T|]. intros y I. apply in_app_or in I. destruct I as [I|[<-|I]].
        -- apply (tab_in n a _ c y T). apply in_or_app. left. exact I.
        -- cbn [ehash ekey]. apply (tab_in n a _ c x T). apply in_or_app. right. left. reflexivity.
        -- apply (tab_in n a _ c y T). apply in_or_app. right. right. exact I.
    + left. split; [reflexivity|]. exists (ekey x), (eval x), (map pair_of (concat (a ++ (b1 ++ b2) :: c))). split; [|reflexivity].
      split; [|apply (hit_key _ _ _ Hx)]. rewrite <- R1, Et. apply (perm_mid pair_of).
  - destruct (add_entry_ok s1 m n k v T I1 R1 R2 Hb) as (s' & -> & R'). cbn [bind]. exists false, s', ((k, v) :: m). split; [reflexivity|]. split; [exact R'|].
    right. split; [reflexivity|]. split; [|reflexivity]. apply (miss n (table s1) m k b T R1 Gb Q).
Qed.
Lemma get_or_set_ok s m k v : rep s m -> zlen m + 1 < 2 ^ 32 -> exists x s' m', get_or_set eqk hash thr s k v = Ok (x, s') /\ rep s' m' /\
  ((m' = m /\ exists k' r, has eqk k k' x m r) \/ (x = v /\ absent eqk k m /\ m' = (k, v) :: m)).
Proof.
  intros R Hb. unfold get_or_set. destruct (Z.eqb_spec (count s) 0) as [e|e].
  - destruct (set_ok_ s m k v R Hb) as (x & s' & m' & -> & R' & C). cbn [bind]. exists v, s', m'. split; [reflexivity|]. split; [exact R'|]. right.
    rewrite (rep_empty _ _ R e) in *. destruct C as [(_ & k' & v0 & r & (C & _) & _)|(_ & C & ->)]; [|auto]. apply Permutation_nil in C. discriminate.
  - destruct (rep_tab s m R e) as (n & T). destruct (bucket n (table s) (rehash (hash k)) T) as (b & Gb). rewrite Gb. cbn [bind].
    destruct (find (hit eqk (rehash (hash k)) k) b) as [x|] eqn:F.
    + exists (eval x), s, m. split; [reflexivity|]. split; [exact R|]. left. split; [reflexivity|].
      destruct (find_split _ _ _ F) as (b1 & b2 & Eb & Hx). subst b. destruct (set_split (table s) _ _ [] Gb) as (a & c & Et & _ & _).
      exists (ekey x), (map pair_of (concat (a ++ (b1 ++ b2) :: c))). split; [|apply (hit_key _ _ _ Hx)]. destruct R as (Pm & _). rewrite <- Pm, Et. apply (perm_mid pair_of).
    + assert (I : inited s = true). { destruct R as (_ & _ & [(I & _)|E]); [exact I|]. subst s. cbn in e. congruence. }
      destruct R as (R1 & R2 & _). destruct (add_entry_ok s m n k v T I R1 R2 Hb) as (s' & -> & R'). cbn [bind]. exists v, s', ((k, v) :: m). split; [reflexivity|]. split; [exact R'|].
      right. split; [reflexivity|]. split; [|reflexivity]. apply (miss n (table s) m k b T R1 Gb). intros x Ix. apply (find_none _ _ F x Ix).
Qed.
Lemma remove_ok s m k : rep s m -> zlen m < 2 ^ 32 -> exists x s' m', remove eqk hash s k = Ok (x, s') /\ rep s' m' /\
  ((x = true /\ exists k' v, has eqk k k' v m m') \/ (x = false /\ absent eqk k m /\ m' = m)).
Proof.
  intros R Hb. unfold remove. destruct (Z.eqb_spec (count s) 0) as [e|e].
  - exists false, s, m. split; [reflexivity|]. split; [exact R|]. right. split; [reflexivity|]. split; [|reflexivity]. rewrite (rep_empty _ _ R e). intros k' v [].
  - destruct (rep_tab s m R e) as (n & T). destruct (bucket n (table s) (rehash (hash k)) T) as (b & Gb). rewrite Gb. cbn [bind].
    assert (Q := remove_first_spec (rehash (hash k)) k b). destruct (remove_first eqk (rehash (hash k)) k b) as [b'|].
    + destruct Q as (b1 & x & b2 & Eb & Hx & ->). subst b. destruct (set_split (table s) _ _ (b1 ++ b2) Gb) as (a & c & Et & Hi & ->). cbn [bind].
      set (r := map pair_of (concat (a ++ (b1 ++ b2) :: c))). exists true. eexists. exists r. split; [reflexivity|].
      assert (I : inited s = true). { destruct R as (_ & _ & [(I & _)|E]); [exact I|]. subst s. cbn in e. congruence. }
      destruct R as (R1 & R2 & _).
      assert (Pm : Permutation m (pair_of x :: r)). { rewrite <- R1, Et. apply (perm_mid pair_of). }
      split.
      * split; [apply Permutation_refl|]. cbn [count inited table]. split.
        -- rewrite R2. assert (L := Permutation_length Pm). cbn [length] in L. pose proof (zlen_nonneg r). unfold w32. unfold zlen in *. rewrite Z.mod_small; lia.
        -- left. split; [exact I|]. exists n. rewrite Et in T. apply (tab_put n a (b1 ++ x :: b2)); [exact T|]. intros y J. apply in_app_or in J.
           apply (tab_in n a _ c y T). apply in_or_app. destruct J as [J|J]; [left; exact J|right; right; exact J].
      * left. split; [reflexivity|]. exists (ekey x), (eval x). split; [exact Pm|apply (hit_key _ _ _ Hx)].
    + exists false, s, m. split; [reflexivity|]. split; [exact R|]. right. split; [reflexivity|]. split; [|reflexivity]. destruct R as (R1 & _). apply (miss n (table s) m k b T R1 Gb Q).
Qed.
Lemma clear_ok s m : rep s m -> rep (clear s) [].
Proof.
  intros R. unfold clear. destruct (Z.eqb_spec (count s) 0) as [e|e]. { rewrite (rep_empty _ _ R e) in R. exact R. }
  assert (I : inited s = true). { destruct R as (_ & _ & [(I & _)|E]); [exact I|]. subst s. cbn in e. congruence. }
  destruct (rep_tab s m R e) as (n & Hn & Hl & P). assert (E : map (fun _ : list (entry K V) => @nil (entry K V)) (table s) = repeat [] (Z.to_nat (2 ^ n))).
  { rewrite <- Hl. unfold zlen. rewrite Nat2Z.id. clear. induction (table s) as [|b t IH]; [reflexivity|]. cbn. f_equal. exact IH. }
  rewrite E. split; [cbn [table]; rewrite concat_repeat; apply Permutation_refl|]. split; [reflexivity|]. left. split; [exact I|]. exists n. apply (tab_empty n Hn).
Qed.
Lemma entries_ok s m : rep s m -> Permutation (map pair_of (each s)) m.
Proof. intros R. unfold each. destruct (Z.eqb_spec (count s) 0) as [e|e]; [rewrite (rep_empty _ _ R e); apply Permutation_refl|]. apply R. Qed.
Lemma zlen_concat s m : rep s m -> zlen (concat (table s)) = zlen m.
Proof. intros (P & _). apply Permutation_length in P. rewrite map_length in P. unfold zlen. lia. Qed.
Lemma fill_ok {B} (f : entry K V -> B) s m : rep s m -> fill f s = Ok (map f (each s)).
Proof.
  intros R. unfold fill, each. destruct (Z.eqb_spec (count s) 0); [reflexivity|]. rewrite (zlen_concat s m R). destruct R as (_ & -> & _). rewrite Z.eqb_refl. reflexivity.
Qed.
Lemma existsb_perm {A} (p : A -> bool) a b : Permutation a b -> existsb p a = existsb p b.
Proof. induction 1; cbn; try congruence. - destruct (p x), (p y); reflexivity. Qed.
Lemma has_value_ok (eqv : V -> V -> bool) s m v : rep s m -> has_value eqv s v = existsb (eqv v) (map snd m).
Proof.
  intros R. unfold has_value. destruct (Z.eqb_spec (count s) 0) as [e|e]; [rewrite (rep_empty _ _ R e); reflexivity|].
  destruct R as (P & _). rewrite <- (existsb_perm _ _ _ (Permutation_map snd P)). rewrite map_map. clear. induction (concat (table s)) as [|x l IH]; [reflexivity|]. cbn. rewrite IH. reflexivity.
Qed.
Variable eqv : V -> V -> bool.
Lemma step s m o : rep s m -> zlen m + 1 < 2 ^ 32 -> exists v s' m', m_step eqk eqv hash thr s o = Ok (v, s') /\ rep s' m' /\ mstep eqk eqv m o v m' /\ zlen m' <= zlen m + 1.
Proof.
  intros R Hb. destruct o; cbn [m_step].
  - destruct (set_ok_ s m k v R Hb) as (x & s' & m' & -> & R' & C). cbn [bind]. exists (OBool x), s', m'. split; [reflexivity|]. split; [exact R'|].
    destruct C as [(-> & k' & v0 & r & C & ->)|(-> & C & ->)]; split; try (econstructor; eassumption).
    + destruct C as (C & _). apply Permutation_length in C. unfold zlen. cbn [length] in *. lia.
    + rewrite zlen_cons. lia.
  - destruct (get_ref_ok s m k R) as (x & -> & C). cbn [bind]. exists (OVal x), s, m. split; [reflexivity|]. split; [exact R|]. split; [|lia].
    destruct x; [destruct C as (k' & r & C)|]; econstructor; eassumption.
  - unfold has_key. destruct (get_ref_ok s m k R) as (x & -> & C). cbn [bind]. eexists _, s, m. split; [reflexivity|]. split; [exact R|]. split; [|lia].
    destruct x; [destruct C as (k' & r & C)|]; econstructor; eassumption.
  - destruct (remove_ok s m k R ltac:(lia)) as (x & s' & m' & -> & R' & C). cbn [bind]. exists (OBool x), s', m'. split; [reflexivity|]. split; [exact R'|].
    destruct C as [(-> & k' & v & C)|(-> & C & ->)]; split; try (econstructor; eassumption).
    + destruct C as (C & _). apply Permutation_length in C. unfold zlen. cbn [length] in *. lia.
    + lia.
  - exists OUnit, (clear s), []. split; [reflexivity|]. split; [apply (clear_ok s m R)|]. split; [constructor|]. pose proof (zlen_nonneg m). rewrite zlen_nil. lia.
  - exists (ONum (zlen m)), s, m. split; [destruct R as (_ & -> & _); reflexivity|]. split; [exact R|]. split; [constructor|lia].
  - rewrite (fill_ok ekey s m R). cbn [bind]. eexists _, s, m. split; [reflexivity|]. split; [exact R|]. split; [|lia]. constructor.
    rewrite <- (Permutation_map fst (entries_ok s m R)), map_map. apply Permutation_refl.
  - rewrite (fill_ok eval s m R). cbn [bind]. eexists _, s, m. split; [reflexivity|]. split; [exact R|]. split; [|lia]. constructor.
    rewrite <- (Permutation_map snd (entries_ok s m R)), map_map. apply Permutation_refl.
  - rewrite (has_value_ok eqv s m v R). eexists _, s, m. split; [reflexivity|]. split; [exact R|]. split; [constructor|lia].
  - destruct (get_or_set_ok s m k v R Hb) as (x & s' & m' & -> & R' & C). cbn [bind]. exists (OVal (Some x)), s', m'. split; [reflexivity|]. split; [exact R'|].
    destruct C as [(-> & k' & r & C)|(-> & C & ->)]; split; try (econstructor; eassumption); [lia|]. rewrite zlen_cons. lia.
  - eexists _, s, m. split; [reflexivity|]. split; [exact R|]. split; [|lia]. constructor. apply entries_ok. exact R.
Qed.
Lemma history : forall os s m, rep s m -> zlen m + zlen os < 2 ^ 32 -> exists vs s' m', m_run eqk eqv hash thr s os = Ok (vs, s') /\ rep s' m' /\ mrun eqk eqv m os vs m'.
Proof.
  induction os as [|o os IH]; intros s m R Hb. { exists [], s, m. split; [reflexivity|]. split; [exact R|constructor]. }
  rewrite zlen_cons in Hb. pose proof (zlen_nonneg os). cbn [m_run]. destruct (step s m o R ltac:(lia)) as (v & s1 & m1 & -> & R1 & S1 & L1). cbn [bind].
  destruct (IH s1 m1 R1 ltac:(lia)) as (vs & s2 & m2 & -> & R2 & S2). cbn [bind]. exists (v :: vs), s2, m2. split; [reflexivity|]. split; [exact R2|]. econstructor; eassumption.
Qed.
Lemma rep_blank : rep blank []. Proof. split; [apply Permutation_refl|]. split; [reflexivity|]. right. reflexivity. Qed.

(** *** Iterators *)
Definition valid s (it : iter) (P c : list (entry K V)) : Prop :=
  0 <= top_index it <= zlen (table s) /\ concat (firstn (Z.to_nat (top_index it)) (table s)) = P ++ c /\ current it = c /\
  idx it = zlen P + (match c with [] => -1 | _ => 0 end).
Lemma firstn_get {A} (l : list A) i x : get l i = Ok x -> firstn (Z.to_nat (i + 1)) l = firstn (Z.to_nat i) l ++ [x].
Proof.
  intros H. apply get_inv in H. destruct H as (Hi & H). destruct (split_at l i Hi) as (a & z & b & -> & <-).
  unfold zlen in H. rewrite Nat2Z.id, nth_error_app2, Nat.sub_diag in H by lia. cbn in H. injection H as ->.
  rewrite (firstn_app_len a (x :: b) (Z.to_nat (zlen a))) by (unfold zlen; lia). replace (a ++ x :: b) with ((a ++ [x]) ++ b) by (rewrite <- app_assoc; reflexivity).
  apply firstn_app_len. rewrite app_length. unfold zlen. cbn [length]. lia.
Qed.
Lemma iter_loop_ok s L i : concat (table s) = L -> 0 <= i < zlen L -> forall fuel it P c, valid s it P c -> idx it <= i -> (idx it = i -> c <> []) ->
  2 * (zlen (table s) - top_index it) + zlen c < Z.of_nat fuel - zlen L + zlen P + zlen c ->
  exists it' P' e r, iter_loop fuel s it i = Ok it' /\ valid s it' P' (e :: r) /\ zlen P' = i.
Proof.
  intros HL Hi. induction fuel as [|f IH]; intros it P c (V1 & V2 & V3 & V4) Hle Hc Hf.
  { assert (zlen P + zlen c <= zlen L).
    { rewrite <- zlen_app, <- V2, <- HL. rewrite <- (firstn_skipn (Z.to_nat (top_index it)) (table s)) at 2. rewrite concat_app, zlen_app. pose proof (zlen_nonneg (concat (skipn (Z.to_nat (top_index it)) (table s)))). lia. }
    pose proof (zlen_nonneg c); lia. }
  cbn [iter_loop]. destruct (Z.eqb_spec (idx it) i) as [e|e].
  - specialize (Hc e). destruct c as [|x r]; [congruence|]. exists it, P, x, r. split; [reflexivity|]. split; [|lia]. repeat split; auto; lia.
  - rewrite V3. destruct c as [|x r].
    + assert (top_index it < zlen (table s)).
      { destruct (Z.eq_dec (top_index it) (zlen (table s))) as [q|q]; [|lia]. rewrite q in V2. unfold zlen in V2 at 1. rewrite Nat2Z.id, firstn_all, app_nil_r in V2. rewrite <- HL, V2 in *. lia. }
      destruct (get_ok (table s) (top_index it) ltac:(lia)) as (b & Gb). rewrite Gb. cbn [bind]. rewrite zlen_nil in Hf.
      eapply (IH _ P b).
      * split; [cbn [top_index]; lia|]. split; [cbn [top_index]; rewrite (firstn_get _ _ _ Gb), concat_app; cbn [concat]; rewrite V2, !app_nil_r; reflexivity|].
        split; [reflexivity|]. cbn [idx]. destruct b; lia.
      * cbn [idx]. destruct b; lia.
      * cbn [idx]. destruct b; [intros; lia|discriminate].
      * cbn [top_index]. lia.
    + eapply (IH _ (P ++ [x]) r).
      * split; [cbn [top_index]; lia|]. split; [cbn [top_index]; rewrite V2, <- app_assoc; reflexivity|]. split; [reflexivity|]. cbn [idx]. rewrite zlen_app, zlen_cons, zlen_nil. destruct r; lia.
      * cbn [idx]. destruct r; lia.
      * cbn [idx]. destruct r; [intros; lia|discriminate].
      * cbn [top_index]. rewrite zlen_app, zlen_cons, zlen_nil. rewrite zlen_cons in Hf. lia.
Qed.
Definition between s (it : iter) : Prop := it = iter_start \/ exists P e r, valid s it P (e :: r).
Lemma iter_get_ok fuel s m it i : rep s m -> between s it -> 0 <= i < zlen m -> 2 * zlen (table s) + zlen m < Z.of_nat fuel ->
  exists e it', iter_get fuel s it i = Ok (e, it') /\ between s it' /\ get (concat (table s)) i = Ok e.
Proof.
  intros R B Hi Hf. unfold iter_get. destruct R as (R1 & R2 & R3). rewrite R2. replace (negb ((0 <=? i) && (i <? zlen m))) with false by lia.
  assert (HL : zlen (concat (table s)) = zlen m). { apply Permutation_length in R1. rewrite map_length in R1. unfold zlen. lia. }
  set (it0 := if i <? idx it then _ else it).
  assert (X : exists P c, valid s it0 P c /\ idx it0 <= i /\ (idx it0 = i -> c <> [])).
  { assert (S0 : valid s iter_start [] []). { pose proof (zlen_nonneg (table s)). repeat split; cbn [top_index iter_start]; lia. }
    subst it0. destruct (Z.ltb_spec i (idx it)).
    - exists [], []. split; [exact S0|]. cbn [idx]. split; lia.
    - destruct B as [->|(P & e & r & Vd)]; [exists [], []; split; [exact S0|]; cbn [idx iter_start]; split; lia|].
      exists P, (e :: r). split; [exact Vd|]. split; [lia|discriminate]. }
  destruct X as (P & c & V0 & Hle & Hne). destruct V0 as (V1 & V2 & V3 & V4) eqn:EV.
  destruct (iter_loop_ok s (concat (table s)) i eq_refl ltac:(lia) fuel it0 P c ltac:(repeat split; assumption || lia) Hle Hne) as (it' & P' & e & r & E & Vd & HP).
  { pose proof (zlen_nonneg P). lia. }
  rewrite E. cbn [bind]. pose proof Vd as (W1 & W2 & W3 & W4). rewrite W3. exists e, it'. split; [reflexivity|]. split; [right; eauto|].
  rewrite <- (firstn_skipn (Z.to_nat (top_index it')) (table s)), concat_app, W2, <- app_assoc. apply get_app. lia.
Qed.
Lemma iter_all_ok fuel s m : rep s m -> 2 * zlen (table s) + zlen m < Z.of_nat fuel -> forall is it, between s it -> Forall (fun i => 0 <= i < zlen m) is ->
  exists es, iter_all fuel s it is = Ok es /\ Forall2 (fun i e => get (concat (table s)) i = Ok e) is es.
Proof.
  intros R Hf. induction is as [|i is IH]; intros it B H; [exists []; split; [reflexivity|constructor]|]. inversion H as [|x y Hi Ht]; subst. cbn [iter_all].
  destruct (iter_get_ok fuel s m it i R B Hi Hf) as (e & it' & -> & B' & G). cbn [bind]. destruct (IH it' B' Ht) as (es & -> & F). cbn [bind]. exists (e :: es). split; [reflexivity|constructor; assumption].
Qed.

(** *** Copying *)
Lemma put_ok s m k v : rep s m -> inited s = true -> absent eqk k m -> zlen m + 1 < 2 ^ 32 -> exists s', put_for_create eqk hash s k v = Ok s' /\ rep s' ((k, v) :: m) /\ inited s' = true.
Proof.
  intros (R1 & R2 & R3) I Ab Hb. unfold put_for_create. destruct R3 as [(_ & n & T)|E]; [|subst s; discriminate].
  destruct (bucket n (table s) (rehash (hash k)) T) as (b & Gb). rewrite Gb. cbn [bind].
  assert (Q := replace_first_spec (rehash (hash k)) k v b). destruct (replace_first eqk (rehash (hash k)) k v b) as [b'|].
  - destruct Q as (b1 & x & b2 & Eb & Hx & _). subst b. destruct (set_split (table s) _ _ [] Gb) as (a & c & Et & _ & _). exfalso.
    assert (J : In (pair_of x) m). { apply (Permutation_in _ R1). apply in_map. rewrite Et. rewrite concat_app. cbn [concat]. apply in_or_app. right. apply in_or_app. left. apply in_or_app. right. left. reflexivity. }
    specialize (Ab (ekey x) (eval x) J). rewrite (hit_key _ _ _ Hx) in Ab. discriminate.
  - destruct (set_split (table s) _ _ (ent (rehash (hash k)) k v :: b) Gb) as (a & c & Et & Hi & ->). cbn [bind].
    eexists. split; [reflexivity|]. split; [|exact I]. split; [|split].
    + cbn [table]. rewrite perm_cons_bucket. rewrite <- Et, R1. apply Permutation_refl.
    + cbn [count]. unfold w32. pose proof (zlen_nonneg m). rewrite R2, zlen_cons, Z.mod_small by lia. lia.
    + left. cbn [inited table]. split; [exact I|]. exists n. rewrite Et in T. apply (tab_put n a b); [exact T|]. intros x [<-|J].
      * cbn [ehash ekey]. split; [reflexivity|]. destruct T as (_ & Hl & _). rewrite Et, Hl in Hi. exact Hi.
      * apply (tab_in n a b c x T J).
Qed.
(** No two associations have equal keys. *)
Fixpoint distinct m : Prop := match m with [] => True | (k, _) :: t => absent eqk k t /\ distinct t end.
Hypothesis sym : forall a b, eqk a b = eqk b a.
Hypothesis trans : forall a b c, eqk a b = true -> eqk b c = true -> eqk a c = true.
Lemma distinct_perm a b : Permutation a b -> distinct a -> distinct b.
Proof.
  induction 1 as [|(k, v) a b P IH|(k1, v1) (k2, v2) a|]; intros D; cbn [distinct] in *; auto.
  - split; [|apply IH; apply D]. intros k' v' J. apply (Permutation_in _ (Permutation_sym P)) in J. destruct D as (D & _). apply (D k' v' J).
  - destruct D as (D1 & D2 & D3). split.
    + intros k' v' [J|J]; [injection J as <- <-; rewrite sym; apply (D1 k1 v1); left; reflexivity|apply (D2 k' v' J)].
    + split; [|exact D3]. intros k' v' J. apply (D1 k' v'). right. exact J.
Qed.
Lemma mstep_distinct m o v m' : mstep eqk eqv m o v m' -> distinct m -> distinct m'.
Proof.
  destruct 1; intros D; auto; try (split; assumption).
  - destruct H as (P & Q). apply (distinct_perm _ _ P) in D. exact D.
  - destruct H as (P & Q). apply (distinct_perm _ _ P) in D. apply D.
Qed.
Lemma mrun_distinct m os vs m' : mrun eqk eqv m os vs m' -> distinct m -> distinct m'.
Proof. induction 1; intros D; auto. apply IHmrun. eapply mstep_distinct; eassumption. Qed.
Lemma put_all_ok : forall es s m, rep s m -> inited s = true -> distinct (map pair_of es ++ m) -> zlen es + zlen m < 2 ^ 32 ->
  exists s', put_all eqk hash es s = Ok s' /\ rep s' (rev (map pair_of es) ++ m).
Proof.
  induction es as [|e es IH]; intros s m R I D Hb; [exists s; split; [reflexivity|exact R]|]. cbn [put_all map app] in *. rewrite zlen_cons in Hb. pose proof (zlen_nonneg es).
  destruct D as (D1 & D2). destruct (put_ok s m (ekey e) (eval e) R I) as (s1 & -> & R1 & I1); [|lia|].
  { intros k' v' J. apply (D1 k' v'). apply in_or_app. right. exact J. }
  cbn [bind]. destruct (IH s1 _ R1 I1) as (s' & E & R').
  - apply (distinct_perm (pair_of e :: map pair_of es ++ m)); [apply Permutation_middle|]. split; assumption.
  - rewrite zlen_cons. lia.
  - exists s'. split; [exact E|]. cbn [rev]. rewrite <- app_assoc. exact R'.
Qed.
Lemma copy_ok s m : rep s m -> distinct m -> zlen m < 2 ^ 32 -> inited s = true -> zlen (table s) < 2 ^ 31 -> exists s', init_from_map eqk hash thr s = Ok s' /\ rep s' m.
Proof.
  intros R D Hb I Ht. unfold init_from_map. destruct (R) as (R1 & R2 & R3). destruct R3 as [(_ & n & Hn & Hl & _)|E]; [|subst s; discriminate].
  assert (0 < 2 ^ n) by (apply Z.pow_pos_nonneg; lia). destruct (init_ok (zlen (table s)) ltac:(lia)) as (s0 & -> & R0 & I0). cbn [bind].
  destruct (Z.eqb_spec (count s) 0) as [e|e]. { exists s0. split; [reflexivity|]. rewrite (rep_empty _ _ R e). exact R0. }
  destruct (put_all_ok (concat (table s)) s0 [] R0 I0) as (s' & E & R').
  - rewrite app_nil_r. apply (distinct_perm m); [symmetry; exact R1|exact D].
  - rewrite (zlen_concat s m R), zlen_nil. lia.
  - exists s'. split; [exact E|]. rewrite app_nil_r in R'. destruct R' as (Q1 & Q2 & Q3). split; [|split; [|exact Q3]].
    + rewrite Q1, <- R1. symmetry. apply Permutation_rev.
    + rewrite Q2. apply Permutation_length in R1. unfold zlen. rewrite rev_length. f_equal. exact R1.
Qed.
End P.
