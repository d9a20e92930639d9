From Coq Require Import ZArith Bool List Lia ZifyBool Permutation.
From Verif Require Import Mach ListAux PqModel PqSpec.
Import ListNotations.
Open Scope Z_scope.
Ltac Zify.zify_post_hook ::= Z.to_euclidean_division_equations.

Section P.
Context {A : Type}.
Variable before : A -> A -> bool.
Hypothesis SW : strict_weak before.
Implicit Types (l : list A).

Lemma get_same {B} (l : list B) i x y : get l i = Ok x -> get l i = Ok y -> x = y.
Proof. congruence. Qed.
Lemma upd_perm l : forall n x y, nth_error l n = Some x -> Permutation (y :: l) (x :: upd l n y).
Proof.
  induction l as [|a l IH]; intros [|n] x y E; cbn [nth_error upd] in *; try discriminate.
  - injection E as <-. apply perm_swap.
  - rewrite perm_swap. rewrite (IH n x y E). apply perm_swap.
Qed.
Lemma swap_ok l i j : 0 <= i < zlen l -> 0 <= j < zlen l ->
  exists l', swap l i j = Ok l' /\ zlen l' = zlen l /\ Permutation l l' /\ forall k, get l' k = if k =? j then get l i else if k =? i then get l j else get l k.
Proof.
  intros Hi Hj. unfold swap. destruct (get_ok l i Hi) as (x & Ex). destruct (get_ok l j Hj) as (y & Ey). rewrite Ex, Ey. cbn [bind].
  destruct (set_ok l i y Hi) as (l1 & E1). rewrite E1. cbn [bind]. pose proof (set_zlen _ _ _ _ E1) as Z1. destruct (set_ok l1 j x ltac:(lia)) as (l2 & E2). rewrite E2. exists l2. split; [reflexivity|].
  pose proof (set_zlen _ _ _ _ E2) as Z2. split; [lia|]. split.
  - assert (G1 : get l1 j = Ok y) by (rewrite (get_set _ _ _ _ _ E1); destruct (j =? i); [reflexivity|exact Ey]).
    apply get_inv in Ex. apply get_inv in G1. destruct Ex as [_ Ex], G1 as [_ G1]. unfold set in E1, E2. destruct ((0 <=? i) && (i <? zlen l)); [|discriminate]. destruct ((0 <=? j) && (j <? zlen l1)); [|discriminate]. injection E1 as <-. injection E2 as <-.
    apply (Permutation_cons_inv (a := y)). rewrite (upd_perm l _ _ y Ex). rewrite (upd_perm _ _ _ x G1). reflexivity.
  - intros k. rewrite (get_set _ _ _ k _ E2), (get_set _ _ _ k _ E1). destruct (k =? j); [reflexivity|]. destruct (k =? i); reflexivity.
Qed.

(** [a] may stand above [b]. *)
Definition le (a b : A) : Prop := before b a = false.
Lemma le_trans a b c : le a b -> le b c -> le a c.
Proof. destruct SW as (_ & _ & T). unfold le. intros H1 H2. apply (T _ b); assumption. Qed.
Lemma before_le a b : before a b = true -> le a b.
Proof. destruct SW as (I & T & _). unfold le. intros H. destruct (before b a) eqn:E; [|reflexivity]. rewrite <- (I a). symmetry. apply (T a b a); assumption. Qed.
Lemma le_refl a : le a a.
Proof. apply SW. Qed.
Definition lel l i j : Prop := forall x y, get l i = Ok x -> get l j = Ok y -> le x y.
Definition par (k : Z) : Z := (k - 1) / 2.
Definition heap (n : Z) l : Prop := forall k, 0 < k < n -> lel l (par k) k.
Lemma lel_trans l i j k : 0 <= j < zlen l -> lel l i j -> lel l j k -> lel l i k.
Proof. intros Hj H1 H2 x y Ex Ey. destruct (get_ok l j Hj) as (z & Ez). apply (le_trans x z y); [apply H1; assumption|apply H2; assumption]. Qed.

Definition Iup l n i : Prop := (forall k, 0 < k < n -> k <> i -> lel l (par k) k) /\ (forall k, 0 < k < n -> par k = i -> 0 < i -> lel l (par i) k).
Lemma sift_up_ok : forall fuel l i, 0 <= i < zlen l -> i < Z.of_nat fuel -> Iup l (zlen l) i ->
  exists l', sift_up before fuel l i = Ok l' /\ zlen l' = zlen l /\ Permutation l l' /\ heap (zlen l) l'.
Proof.
  induction fuel as [|f IH]; intros l i Hi Hf [I1 I2]; [lia|]. cbn [sift_up]. destruct (Z.ltb_spec 0 i) as [Pi|Pi].
  - change ((i - 1) / 2) with (par i). assert (Hp : 0 <= par i < i) by (unfold par; lia). destruct (get_ok l i Hi) as (it & Ei). destruct (get_ok l (par i) ltac:(lia)) as (pa & Ep). rewrite Ei, Ep. cbn [bind]. destruct (before it pa) eqn:B.
    + destruct (swap_ok l i (par i) Hi ltac:(lia)) as (l1 & E1 & Z1 & P1 & G1). rewrite E1. cbn [bind]. apply before_le in B.
      destruct (IH l1 (par i) ltac:(lia) ltac:(lia)) as (l2 & E2 & Z2 & P2 & H2).
      { rewrite Z1. split.
        - intros k Hk Nk x y Ex Ey. rewrite G1 in Ex, Ey. replace (k =? par i) with false in Ey by lia. destruct (Z.eqb_spec k i) as [ -> |Nki].
          + rewrite Z.eqb_refl in Ex. replace x with it by congruence. replace y with pa by congruence. exact B.
          + destruct (Z.eqb_spec (par k) (par i)) as [Q|Q].
            * apply (le_trans x pa y); [replace x with it by congruence; exact B|]. apply (I1 k Hk Nki); [congruence|exact Ey].
            * destruct (Z.eqb_spec (par k) i) as [R|R]; [|apply (I1 k Hk Nki); assumption]. apply (I2 k Hk R Pi); [congruence|exact Ey].
        - intros k Hk Q Pp x y Ex Ey. rewrite G1 in Ex, Ey. assert (par (par i) < par i) by (unfold par in *; lia). replace (par (par i) =? par i) with false in Ex by lia. replace (par (par i) =? i) with false in Ex by lia. assert (par k < k) by (unfold par; lia). replace (k =? par i) with false in Ey by lia.
          assert (Lp : lel l (par (par i)) (par i)) by (apply I1; lia).
          destruct (Z.eqb_spec k i) as [ -> |Nki].
          + apply Lp; assumption.
          + apply (lel_trans l (par (par i)) (par i) k ltac:(lia) Lp); [rewrite <- Q; apply I1; assumption|exact Ex|exact Ey]. }
      exists l2. split; [exact E2|]. split; [lia|]. split; [rewrite P1; exact P2|]. rewrite Z1 in H2. exact H2.
    + exists l. split; [reflexivity|]. split; [reflexivity|]. split; [reflexivity|]. intros k Hk. destruct (Z.eq_dec k i) as [ -> |]; [|apply I1; assumption]. intros x y Ex Ey. replace x with pa by congruence. replace y with it by congruence. exact B.
  - exists l. split; [reflexivity|]. split; [reflexivity|]. split; [reflexivity|]. intros k Hk. apply I1; lia.
Qed.
Lemma push_ok fuel l x : heap (zlen l) l -> zlen l < Z.of_nat fuel -> exists l', pq_push before fuel l x = Ok l' /\ Permutation (x :: l) l' /\ heap (zlen l') l'.
Proof.
  intros H Hf. unfold pq_push. rewrite zlen_app. change (zlen [x]) with 1. replace (zlen l + 1 - 1) with (zlen l) by lia. pose proof (zlen_nonneg l).
  assert (Z1 : zlen (l ++ [x]) = zlen l + 1) by (rewrite zlen_app; reflexivity).
  destruct (sift_up_ok fuel (l ++ [x]) (zlen l) ltac:(lia) ltac:(lia)) as (l' & E & Z & P & H').
  { split; [|intros k Hk Q; unfold par in Q; lia]. intros k Hk Nk a b Ea Eb. rewrite get_app_l in Ea, Eb by (unfold par; lia). apply (H k ltac:(lia)); assumption. }
  exists l'. split; [exact E|]. split; [rewrite <- P; apply Permutation_cons_append|]. rewrite Z. exact H'.
Qed.

Definition Idn l n i : Prop := (forall k, 0 < k < n -> par k <> i -> lel l (par k) k) /\ (forall k, 0 < k < n -> par k = i -> 0 < i -> lel l (par i) k).
Lemma down_step l n i j l1 : 0 <= i -> n <= zlen l -> 0 < j < n -> par j = i -> Idn l n i -> (forall k, 0 < k < n -> par k = i -> lel l j k) -> lel l j i ->
  (forall k, get l1 k = if k =? j then get l i else if k =? i then get l j else get l k) -> Idn l1 n j.
Proof.
  intros Hi Hn Hj Q [I1 I2] Hs Hb G. assert (i < j) by (unfold par in Q; lia). split.
  - intros k Hk Nk x y Ex Ey. rewrite G in Ex, Ey. assert (par k < k) by (unfold par; lia). replace (par k =? j) with false in Ex by lia.
    destruct (Z.eqb_spec k j) as [ -> |Nkj].
    + rewrite Q, Z.eqb_refl in Ex. apply Hb; assumption.
    + destruct (Z.eqb_spec k i) as [ -> |Nki].
      * replace (par i =? i) with false in Ex by lia. apply (I2 j Hj Q); [lia|exact Ex|exact Ey].
      * destruct (Z.eqb_spec (par k) i) as [R|R]; [apply (Hs k Hk R); assumption|]. apply (I1 k Hk R); assumption.
  - intros k Hk R _ x y Ex Ey. rewrite G in Ex, Ey. rewrite Q in Ex. replace (i =? j) with false in Ex by lia. rewrite Z.eqb_refl in Ex. assert (j < k) by (unfold par in R; lia). replace (k =? j) with false in Ey by lia. replace (k =? i) with false in Ey by lia.
    subst j. apply (I1 k Hk ltac:(lia)); assumption.
Qed.
Lemma sift_down_ok : forall fuel l n i, 0 <= i -> n <= zlen l -> Z.max 0 (n - i) < Z.of_nat fuel -> Idn l n i ->
  exists l', sift_down before fuel l n i = Ok l' /\ zlen l' = zlen l /\ Permutation l l' /\ heap n l' /\ forall k, n <= k -> get l' k = get l k.
Proof.
  induction fuel as [|f IH]; intros l n i Hi Hn Hf I; [lia|]. cbn [sift_down]. destruct (Z.ltb_spec (2 * i + 1) n) as [L|L].
  - set (j := 2 * i + 1) in *. assert (Pj : par j = i) by (unfold par, j; lia). destruct (get_ok l j ltac:(lia)) as (le_ & El). destruct (get_ok l i ltac:(lia)) as (it & Ei). rewrite El, Ei. cbn [bind].
    assert (Kids : forall k, 0 < k < n -> par k = i -> k = j \/ k = j + 1) by (intros k Hk Q; unfold par, j in *; lia).
    assert (Go : forall j', 0 < j' < n -> par j' = i -> j' = j \/ j' = j + 1 -> (forall k, 0 < k < n -> par k = i -> lel l j' k) -> lel l j' i ->
      exists l', (l <- swap l i j' ;; sift_down before f l n j') = Ok l' /\ zlen l' = zlen l /\ Permutation l l' /\ heap n l' /\ forall k, n <= k -> get l' k = get l k).
    { intros j' Hj' Pj' Cj Hs Hb. destruct (swap_ok l i j' ltac:(lia) ltac:(lia)) as (l1 & E1 & Z1 & P1 & G1). rewrite E1. cbn [bind].
      destruct (IH l1 n j' ltac:(lia) ltac:(lia) ltac:(lia) (down_step l n i j' l1 Hi Hn Hj' Pj' I Hs Hb G1)) as (l2 & E2 & Z2 & P2 & H2 & K2).
      exists l2. split; [exact E2|]. split; [lia|]. split; [rewrite P1; exact P2|]. split; [exact H2|]. intros k Hk. rewrite K2, G1 by exact Hk. replace (k =? j') with false by lia. replace (k =? i) with false by lia. reflexivity. }
    assert (Stop : (forall k, 0 < k < n -> par k = i -> lel l i k) -> exists l', Ok l = Ok l' /\ zlen l' = zlen l /\ Permutation l l' /\ heap n l' /\ forall k, n <= k -> get l' k = get l k).
    { intros Hs. exists l. split; [reflexivity|]. split; [reflexivity|]. split; [reflexivity|]. split; [|reflexivity]. intros k Hk. destruct (Z.eq_dec (par k) i) as [Q|Q]; [rewrite Q; apply Hs; assumption|apply I; assumption]. }
    destruct (Z.ltb_spec (j + 1) n) as [L2|L2].
    + destruct (get_ok l (j + 1) ltac:(lia)) as (ri & Er). rewrite Er. cbn [bind]. assert (Pj1 : par (j + 1) = i) by (unfold par, j; lia).
      destruct (before ri le_) eqn:B1.
      * apply before_le in B1. destruct (before ri it) eqn:B2.
        -- apply before_le in B2. apply Go; [lia|exact Pj1|auto| |intros x y Ex Ey; replace x with ri by congruence; replace y with it by congruence; exact B2].
           intros k Hk Q. destruct (Kids k Hk Q) as [ -> | -> ]; intros x y Ex Ey; replace x with ri by congruence; [replace y with le_ by congruence; exact B1|replace y with ri by congruence; apply le_refl].
        -- apply Stop. intros k Hk Q. destruct (Kids k Hk Q) as [ -> | -> ]; intros x y Ex Ey; replace x with it by congruence; [replace y with le_ by congruence; apply (le_trans it ri le_); assumption|replace y with ri by congruence; exact B2].
      * destruct (before le_ it) eqn:B2.
        -- apply before_le in B2. apply Go; [lia|exact Pj|auto| |intros x y Ex Ey; replace x with le_ by congruence; replace y with it by congruence; exact B2].
           intros k Hk Q. destruct (Kids k Hk Q) as [ -> | -> ]; intros x y Ex Ey; replace x with le_ by congruence; [replace y with le_ by congruence; apply le_refl|replace y with ri by congruence; exact B1].
        -- apply Stop. intros k Hk Q. destruct (Kids k Hk Q) as [ -> | -> ]; intros x y Ex Ey; replace x with it by congruence; [replace y with le_ by congruence; exact B2|replace y with ri by congruence; apply (le_trans it le_ ri); assumption].
    + assert (Kid : forall k, 0 < k < n -> par k = i -> k = j) by (intros k Hk Q; destruct (Kids k Hk Q); lia). destruct (before le_ it) eqn:B2.
      * apply before_le in B2. apply Go; [lia|exact Pj|auto| |intros x y Ex Ey; replace x with le_ by congruence; replace y with it by congruence; exact B2].
        intros k Hk Q. rewrite (Kid k Hk Q). intros x y Ex Ey. replace x with le_ by congruence. replace y with le_ by congruence. apply le_refl.
      * apply Stop. intros k Hk Q. rewrite (Kid k Hk Q). intros x y Ex Ey. replace x with it by congruence. replace y with le_ by congruence. exact B2.
  - exists l. split; [reflexivity|]. split; [reflexivity|]. split; [reflexivity|]. split; [|reflexivity]. intros k Hk. apply I; [exact Hk|]. unfold par. lia.
Qed.
Lemma root_first l : heap (zlen l) l -> forall x, get l 0 = Ok x -> is_first before x l.
Proof.
  intros H x Ex y Iy. apply In_nth_error in Iy. destruct Iy as (n & En). assert (Hn : (n < length l)%nat) by (apply nth_error_Some; congruence).
  assert (K : forall m k, 0 <= k < m -> k < zlen l -> lel l 0 k).
  { intros m. destruct (Z.le_gt_cases m 0) as [C|C]; [intros; lia|]. assert (C' : 0 <= m) by lia. clear C. revert m C'. refine (natlike_ind _ _ _); [intros; lia|]. intros m Hm IHm k Hk Lk. destruct (Z.eq_dec k 0) as [ -> |].
    - intros a b Ea Eb. replace b with a by congruence. apply le_refl.
    - apply (lel_trans l 0 (par k) k); [unfold par; lia|apply IHm; unfold par; lia|apply H; lia]. }
  apply (K (Z.of_nat n + 1) (Z.of_nat n) ltac:(lia) ltac:(unfold zlen; lia)); [exact Ex|]. rewrite nth_error_get by lia. rewrite Nat2Z.id, En. reflexivity.
Qed.
Lemma heap_prefix n l u x : l = u ++ [x] -> n = zlen u -> heap n l -> heap (zlen u) u.
Proof. intros -> -> H k Hk a b Ea Eb. apply (H k Hk); rewrite get_app_l; try assumption; unfold par; lia. Qed.
Lemma pop_ok fuel l : heap (zlen l) l -> zlen l < Z.of_nat fuel ->
  (l = [] /\ pq_pop before fuel l = Ok (None, [])) \/ exists x u, pq_pop before fuel l = Ok (Some x, u) /\ Permutation l (x :: u) /\ heap (zlen u) u /\ is_first before x l.
Proof.
  intros H Hf. destruct l as [|x0 l0]; [left; split; reflexivity|]. right. set (l := x0 :: l0) in *. assert (Hz : 0 < zlen l) by (unfold l; rewrite zlen_cons; pose proof (zlen_nonneg l0); lia).
  unfold pq_pop. replace (zlen l =? 0) with false by lia. destruct (swap_ok l 0 (zlen l - 1) ltac:(lia) ltac:(lia)) as (l1 & E1 & Z1 & P1 & G1). rewrite E1. cbn [bind].
  destruct (sift_down_ok fuel l1 (zlen l - 1) 0 ltac:(lia) ltac:(lia) ltac:(lia)) as (l2 & E2 & Z2 & P2 & H2 & K2).
  { split; [|intros; lia]. intros k Hk Nk a b Ea Eb. rewrite G1 in Ea, Eb. assert (0 < par k < k) by (unfold par in *; lia). replace (par k =? zlen l - 1) with false in Ea by lia. replace (par k =? 0) with false in Ea by lia. replace (k =? zlen l - 1) with false in Eb by lia. replace (k =? 0) with false in Eb by lia. apply (H k ltac:(lia)); assumption. }
  rewrite E2. cbn [bind]. destruct (exists_last_or l2) as [ -> |(u & x & -> )]; [change (zlen (@nil A)) with 0 in Z2; lia|]. rewrite rev_app_distr. cbn [rev app]. rewrite removelast_last. exists x, u. split; [reflexivity|].
  rewrite zlen_app in Z2. change (zlen [x]) with 1 in Z2. assert (Ex : get l 0 = Ok x).
  { assert (G : get (u ++ [x]) (zlen l - 1) = Ok x) by (apply get_app; lia). rewrite K2, G1, Z.eqb_refl in G by lia. exact G. }
  split; [rewrite P1, P2; symmetry; apply Permutation_cons_append|]. split; [apply (heap_prefix (zlen l - 1) (u ++ [x]) u x); [reflexivity|lia|exact H2]|]. apply root_first; assumption.
Qed.
Lemma history fuel : forall os l b, Permutation b l -> heap (zlen l) l -> zlen l + zlen os < Z.of_nat fuel -> removes_first (length b) os ->
  exists vs l', q_run before fuel l os = Ok (vs, l') /\ bag_run before b os vs.
Proof.
  induction os as [|o os IH]; intros l b P H Hf R.
  - exists [], l. split; [reflexivity|constructor].
  - rewrite zlen_cons in Hf. pose proof (zlen_nonneg os). pose proof (zlen_nonneg l). destruct o as [x| | |i]; cbn [removes_first q_run q_step] in *.
    + destruct (push_ok fuel l x H ltac:(lia)) as (l1 & E & P1 & Hh1). rewrite E. cbn [bind].
      assert (Z1 : zlen l1 = 1 + zlen l) by (unfold zlen; rewrite <- (Permutation_length P1); cbn [length]; lia).
      destruct (IH l1 (x :: b)) as (vs & l' & E' & B'); [rewrite P; exact P1|exact Hh1|lia|exact R|]. rewrite E'. cbn [bind]. exists (None :: vs), l'. split; [reflexivity|constructor; exact B'].
    + destruct (pop_ok fuel l H ltac:(lia)) as [[ -> E]|(x & u & E & Pu & Hu & F)]; rewrite E; cbn [bind].
      * apply Permutation_sym, Permutation_nil in P. subst b. destruct (IH [] []) as (vs & l' & E' & B'); [constructor|exact H|lia|exact R|]. rewrite E'. cbn [bind]. exists (None :: vs), l'. split; [reflexivity|constructor; exact B'].
      * assert (Zu : zlen l = 1 + zlen u) by (unfold zlen; rewrite (Permutation_length Pu); cbn [length]; lia).
        destruct (IH u u) as (vs & l' & E' & B'); [reflexivity|exact Hu|lia|replace (length u) with (pred (length b)); [exact R|rewrite (Permutation_length P), (Permutation_length Pu); reflexivity]|]. rewrite E'. cbn [bind]. exists (Some x :: vs), l'. split; [reflexivity|].
        apply (bag_pop _ b x u); [rewrite P; exact Pu| |exact B']. intros y Iy. apply F. apply (Permutation_in _ P). exact Iy.
    + destruct (IH l b P H ltac:(lia) R) as (vs & l' & E' & B'). cbn [bind]. rewrite E'. cbn [bind]. destruct l as [|x l]; cbn [pq_first].
      * apply Permutation_sym, Permutation_nil in P. subst b. exists (None :: vs), l'. split; [reflexivity|constructor; exact B'].
      * exists (Some x :: vs), l'. split; [reflexivity|]. apply bag_first; [apply (Permutation_in _ (Permutation_sym P)); left; reflexivity| |exact B']. intros y Iy. apply (root_first (x :: l) H x); [reflexivity|]. apply (Permutation_in _ P). exact Iy.
    + destruct R as ( -> & N & R). unfold pq_remove_at. cbn [Z.eqb]. destruct (pop_ok fuel l H ltac:(lia)) as [[ -> E]|(x & u & E & Pu & Hu & F)]; rewrite E; cbn [bind].
      * apply Permutation_sym, Permutation_nil in P. subst b. cbn in N. congruence.
      * assert (Zu : zlen l = 1 + zlen u) by (unfold zlen; rewrite (Permutation_length Pu); cbn [length]; lia).
        destruct (IH u u) as (vs & l' & E' & B'); [reflexivity|exact Hu|lia|replace (length u) with (pred (length b)); [exact R|rewrite (Permutation_length P), (Permutation_length Pu); reflexivity]|]. rewrite E'. cbn [bind]. exists (None :: vs), l'. split; [reflexivity|].
        apply (bag_remove _ b x u); [rewrite P; exact Pu| |exact B']. intros y Iy. apply F. apply (Permutation_in _ P). exact Iy.
Qed.
End P.
