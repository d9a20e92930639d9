(** Proofs about the compiler's lookup tables. *)
From Coq Require Import ZArith Bool List Lia ZifyBool Permutation.
From Verif Require Import Mach ListAux TabModel TabSpec TabProbe.
Import ListNotations.
Open Scope Z_scope.

(** ** The next power of two *)
Lemma smear n y w : 0 <= n -> 0 < w -> 0 <= y < 2 ^ (n + 1) -> (forall j, 0 <= j < w -> 0 <= n - j -> Z.testbit y (n - j) = true) ->
  let y' := Z.lor y (Z.shiftr y w) in
  0 <= y' < 2 ^ (n + 1) /\ (forall j, 0 <= j < 2 * w -> 0 <= n - j -> Z.testbit y' (n - j) = true).
Proof.
  intros N W Y B y'. subst y'. split.
  - split; [apply Z.lor_nonneg; split; [lia|apply Z.shiftr_nonneg; lia]|].
    destruct (Z.eq_dec (Z.lor y (Z.shiftr y w)) 0) as [->|Nz]; [lia|].
    assert (0 < Z.lor y (Z.shiftr y w)) by (assert (0 <= Z.lor y (Z.shiftr y w)) by (apply Z.lor_nonneg; split; [lia|apply Z.shiftr_nonneg; lia]); lia).
    apply Z.log2_lt_pow2; [assumption|]. rewrite Z.log2_lor by (try apply Z.shiftr_nonneg; lia).
    assert (Z.shiftr y w <= y).
    { rewrite Z.shiftr_div_pow2 by lia. apply Z.div_le_upper_bound; [lia|]. assert (1 <= 2 ^ w) by (assert (0 < 2 ^ w) by lia; lia). nia. }
    pose proof (Z.log2_le_mono _ _ H0). assert (Z.log2 y < n + 1).
    { destruct (Z.eq_dec y 0) as [->|]; [cbn; lia|]. apply Z.log2_lt_pow2; lia. }
    lia.
  - intros j J Nj. rewrite Z.lor_spec. destruct (Z.lt_ge_cases j w) as [L|L]; [rewrite B by lia; reflexivity|].
    rewrite Z.shiftr_spec by lia. replace (n - j + w) with (n - (j - w)) by lia. rewrite (B (j - w)) by lia. apply orb_true_r.
Qed.
Lemma next_pow2_spec v : 1 <= v <= 2 ^ 31 -> exists c, 0 <= c <= 31 /\ next_pow2 v = 2 ^ c /\ v <= 2 ^ c < 2 * v.
Proof.
  intros H. destruct (Z.eq_dec v 1) as [->|N1]; [exists 0; vm_compute; intuition congruence|].
  set (n := Z.log2 (v - 1)). assert (Hn : 0 <= n) by apply Z.log2_nonneg.
  pose proof (Z.log2_spec (v - 1) ltac:(lia)) as S. fold n in S. rewrite <- Z.add_1_r in S.
  assert (Hn2 : n < 31).
  { apply (Z.pow_lt_mono_r_iff 2); try lia. }
  exists (n + 1). split; [lia|]. assert (P : 2 ^ (n + 1) = 2 * 2 ^ n) by (rewrite Z.pow_add_r by lia; lia).
  split; [|lia]. unfold next_pow2. cbv zeta. rewrite (Z.mod_small (v - 1)) by lia.
  set (a0 := v - 1). assert (A0 : 0 <= a0 < 2 ^ (n + 1)) by (subst a0; lia).
  assert (B0 : forall j, 0 <= j < 1 -> 0 <= n - j -> Z.testbit a0 (n - j) = true).
  { intros j J _. replace (n - j) with n by lia. subst n a0. apply Z.bit_log2. lia. }
  clearbody a0. clear S.
  set (a1 := Z.lor a0 (Z.shiftr a0 1)). destruct (smear n a0 1 Hn ltac:(lia) A0 B0) as (A1 & B1). fold a1 in A1, B1. clearbody a1.
  set (a2 := Z.lor a1 (Z.shiftr a1 2)). destruct (smear n a1 2 Hn ltac:(lia) A1 B1) as (A2 & B2). fold a2 in A2, B2. clearbody a2.
  set (a3 := Z.lor a2 (Z.shiftr a2 4)). destruct (smear n a2 4 Hn ltac:(lia) A2 B2) as (A3 & B3). fold a3 in A3, B3. clearbody a3.
  set (a4 := Z.lor a3 (Z.shiftr a3 8)). destruct (smear n a3 8 Hn ltac:(lia) A3 B3) as (A4 & B4). fold a4 in A4, B4. clearbody a4.
  set (a5 := Z.lor a4 (Z.shiftr a4 16)). destruct (smear n a4 16 Hn ltac:(lia) A4 B4) as (A5 & B5). fold a5 in A5, B5. clearbody a5.
  assert (E : a5 = Z.ones (n + 1)).
  { apply Z.bits_inj'. intros m M. destruct (Z.le_gt_cases m n) as [L|L].
    - rewrite Z.ones_spec_low by lia. replace m with (n - (n - m)) by lia. apply B5; lia.
    - rewrite Z.ones_spec_high by lia. destruct (Z.eq_dec a5 0) as [->|]; [apply Z.testbit_0_l|]. apply Z.bits_above_log2; [lia|].
      apply Z.log2_lt_pow2; [lia|]. apply Z.lt_le_trans with (2 ^ (n + 1)); [lia|]. apply Z.pow_le_mono_r; lia. }
  rewrite E, Z.ones_equiv. replace (Z.pred (2 ^ (n + 1)) + 1) with (2 ^ (n + 1)) by lia. apply Z.mod_small.
  split; [lia|]. apply Z.pow_lt_mono_r; lia.
Qed.

(** ** Generic table facts *)
Lemma repeat_zlen {A} (x : A) n : 0 <= n -> zlen (repeat x (Z.to_nat n)) = n.
Proof. intros H. unfold zlen. rewrite repeat_length. lia. Qed.
Lemma half_pow c : 1 <= c -> half (2 ^ c) = 2 ^ (c - 1).
Proof. intros H. unfold half. replace c with (c - 1 + 1) at 1 by lia. rewrite Z.pow_add_r by lia. apply Z.div_mul. lia. Qed.

(** ** The table with overwriting *)
Definition khash (key : Z) : Z := Z.lxor key (Z.shiftr key 16) mod 2 ^ 32.
Definition sem (s : Z * Z) : bool := fst s =? 0.
Definition shome (s : Z * Z) : Z := khash (fst s).
Definition scont := contents sem.
Lemma sem0 : sem (0, 0) = true. Proof. reflexivity. Qed.
Notation "'spinv'" := (pinv sem shome (0, 0)).
Notation "'ssl'" := (sl (0, 0)).

Lemma nodup_key (t : list (Z * Z)) i j : NoDup (map fst (scont t)) -> 0 <= i < zlen t -> 0 <= j < zlen t ->
  sem (ssl t i) = false -> sem (ssl t j) = false -> fst (ssl t i) = fst (ssl t j) -> i = j.
Proof.
  intros ND Hi Hj Ei Ej E. rewrite !sl_small in * by assumption.
  assert (Ln : (Z.to_nat i < length t)%nat) by (unfold zlen in Hi; lia).
  assert (Lm : (Z.to_nat j < length t)%nat) by (unfold zlen in Hj; lia).
  assert (X : Z.to_nat i = Z.to_nat j); [|lia]. revert Ei Ej E Ln Lm. generalize (Z.to_nat i) (Z.to_nat j). clear Hi Hj i j.
  unfold scont, contents in ND. induction t as [|s t IH]; intros n m Ei Ej E Ln Lm; cbn [length] in *; [lia|].
  cbn [filter] in ND. destruct n as [|n], m as [|m]; cbn [nth] in *; [reflexivity| | |].
  - rewrite Ei in ND. cbn [negb map] in ND. inversion ND as [|x y NI _]. exfalso. apply NI. rewrite E. apply in_map. apply filter_In.
    split; [apply nth_In; lia|rewrite Ej; reflexivity].
  - rewrite Ej in ND. cbn [negb map] in ND. inversion ND as [|x y NI _]. exfalso. apply NI. rewrite <- E. apply in_map. apply filter_In.
    split; [apply nth_In; lia|rewrite Ei; reflexivity].
  - f_equal. apply IH; try assumption; try lia. destruct (sem s); cbn [negb map] in ND; [exact ND|inversion ND; assumption].
Qed.

Record swf (t : list (Z * Z)) (c : Z) : Prop := SWF {
  w_len : zlen t = 2 ^ c; w_c : 0 <= c; w_inv : spinv t; w_nd : NoDup (map fst (scont t));
  w_room : (length (scont t) < length t)%nat; w_zero : Forall (fun s => fst s = 0 -> snd s = 0) t }.

Lemma sentry_find_spec t c key : swf t c -> key <> 0 ->
  exists i, sentry_find t (2 ^ c) key = Done i /\ 0 <= i < zlen t /\
    ((sem (ssl t i) = false /\ fst (ssl t i) = key) \/
     (sem (ssl t i) = true /\ ~ In key (map fst (scont t)) /\ (forall s, fst s = key -> spinv (upd t (Z.to_nat i) s)))).
Proof.
  intros [L C I ND R Z0] K. unfold sentry_find, ptr_index. rewrite land_mask by lia. fold (khash key).
  rewrite (probe_ext _ (fun s => sem s || (fst s =? key))) by (intros; apply orb_comm).
  destruct (in_dec Z.eq_dec key (map fst (scont t))) as [H|H].
  - apply in_map_iff in H. destruct H as (s & F & H). apply (in_contents sem (0, 0)) in H. destruct H as (i & Hi & S & E).
    exists i. rewrite (probe_finds sem shome (0, 0) (fun s => fst s =? key) t c (khash key) i L C I Hi); try (rewrite S).
    + split; [reflexivity|]. split; [exact Hi|]. left. auto.
    + exact E.
    + rewrite F. apply Z.eqb_refl.
    + unfold shome. rewrite F. reflexivity.
    + intros j Hj Ej Q. apply (nodup_key t); try assumption; [rewrite S; exact E|]. rewrite S, F. lia.
  - destruct (has_empty sem (0, 0) t R) as (i0 & Hi0 & E0).
    destruct (probe_misses sem shome (0, 0) (fun s => fst s =? key) t c (khash key) i0 L C I Hi0 E0) as (i & P & Hi & E & U).
    { intros j Hj Ej. apply Z.eqb_neq. intros Q. apply H. rewrite <- Q. apply in_map. apply (in_contents sem (0, 0)). exists j. auto. }
    exists i. split; [exact P|]. split; [exact Hi|]. right. split; [exact E|]. split; [exact H|].
    intros s F. apply U; [unfold sem; rewrite F; lia|unfold shome; rewrite F; reflexivity].
Qed.

Lemma Forall_upd {A} (P : A -> Prop) (t : list A) : forall n x, Forall P t -> P x -> Forall P (upd t n x).
Proof. induction t as [|a t IH]; intros [|n] x F X; cbn [upd]; inversion F; subst; auto. Qed.

Lemma scont_cons s t : scont (s :: t) = if sem s then scont t else s :: scont t.
Proof. unfold scont, contents. cbn [filter]. destruct (sem s); reflexivity. Qed.
Lemma srehash_spec c : 0 <= c -> forall old new count,
  swf new c -> (length (scont new) + length (scont old) < length new)%nat ->
  NoDup (map fst (scont old ++ scont new)) ->
  exists new', srehash old new (2 ^ c) count = Done (new', count + zlen (scont old)) /\ swf new' c /\
    zlen new' = zlen new /\ Permutation (scont new') (scont old ++ scont new).
Proof.
  intros C old. induction old as [|s old IH]; intros new count W R ND.
  - exists new. cbn. rewrite Z.add_0_r. auto.
  - cbn [srehash]. rewrite scont_cons in *. change (fst s =? 0) with (sem s). destruct (sem s) eqn:E.
    + apply IH; assumption.
    + cbn [app map length] in *. inversion ND as [|x y NI ND']. subst.
      destruct (sentry_find_spec new c (fst s) W) as (i & F & Hi & [[E1 K1]|(E1 & K1 & U)]); [unfold sem in E; lia| |].
      { exfalso. apply NI. rewrite map_app. apply in_or_app. right. rewrite <- K1. apply in_map.
        apply (in_contents sem (0, 0)). exists i. auto. }
      rewrite F. cbn [obind]. rewrite store_ok by exact Hi. cbn [obind].
      pose proof (contents_insert sem (0, 0) new i s Hi E1 E) as PM. fold scont in PM.
      destruct W as [L0 C0 I0 ND0 R0 Z0].
      assert (W' : swf (upd new (Z.to_nat i) s) c).
      { constructor; try assumption.
        - unfold zlen in *. rewrite upd_length. exact L0.
        - apply U. reflexivity.
        - apply (Permutation_NoDup (l := map fst (s :: scont new))); [apply Permutation_map; symmetry; exact PM|].
          cbn [map]. constructor; [exact K1|exact ND0].
        - rewrite upd_length, (Permutation_length PM). cbn [length]. lia.
        - apply Forall_upd; [exact Z0|]. unfold sem in E. lia. }
      destruct (IH (upd new (Z.to_nat i) s) (count + 1) W') as (new' & Q & Wn & Ln & Pn).
      * rewrite upd_length, (Permutation_length PM). cbn [length]. lia.
      * apply (Permutation_NoDup (l := map fst (s :: scont old ++ scont new))); [|exact ND].
        apply Permutation_map. etransitivity; [apply Permutation_middle|]. apply Permutation_app_head. symmetry. exact PM.
      * exists new'. split; [rewrite Q, zlen_cons; f_equal; f_equal; lia|]. split; [exact Wn|].
        split; [rewrite Ln; unfold zlen; rewrite upd_length; reflexivity|].
        rewrite Pn, PM. symmetry. apply Permutation_middle.
Qed.

(** The invariant of the table, with the finite map it stands for. *)
Record tinv (t : stable) (m : Z -> Z) : Prop := TINV {
  t_c : exists c, 0 <= c <= 30 /\ st_capacity t = 2 ^ c /\ swf (st_entries t) c;
  t_load : st_max_load t = half (st_capacity t);
  t_count : st_count t = zlen (scont (st_entries t));
  t_small : st_count t = 0 \/ st_count t < st_max_load t;
  t_map : forall k v, In (k, v) (scont (st_entries t)) <-> k <> 0 /\ v <> 0 /\ m k = v }.

Lemma in_fst_map {B} (l : list (Z * B)) k v : In (k, v) l -> In k (map fst l).
Proof. intros H. apply in_map_iff. exists (k, v). auto. Qed.

Lemma stable_resize_spec t m c : 0 <= c < 29 -> st_capacity t = 2 ^ c -> zlen (st_entries t) = 2 ^ c ->
  NoDup (map fst (scont (st_entries t))) -> zlen (scont (st_entries t)) <= 2 ^ c ->
  (forall k v, In (k, v) (scont (st_entries t)) <-> k <> 0 /\ v <> 0 /\ m k = v) ->
  exists t', stable_resize t = Done t' /\ tinv t' m /\ st_count t' = zlen (scont (st_entries t)).
Proof.
  intros C Q L ND R M. unfold stable_resize. rewrite Q.
  assert (P : 2 ^ c <= 2 ^ 28) by (apply Z.pow_le_mono_r; lia).
  assert (P0 : 0 < 2 ^ c) by (apply Z.pow_pos_nonneg; lia).
  assert (P2 : 2 ^ (c + 2) = 2 ^ c * 4) by (rewrite Z.pow_add_r by lia; lia).
  unfold MAX_HASH. replace (2 ^ 29 <=? 2 ^ c) with false by lia. replace (2 ^ c =? 0) with false by lia.
  rewrite (Z.mod_small (2 ^ c * 4)) by lia. rewrite <- P2.
  set (E := repeat (0, 0) (Z.to_nat (2 ^ (c + 2)))).
  assert (CE : scont E = []) by (apply contents_empty; reflexivity).
  assert (LE : zlen E = 2 ^ (c + 2)) by (apply repeat_zlen; lia).
  assert (WE : swf E (c + 2)).
  { constructor; try lia.
    - apply pinv_empty. reflexivity.
    - rewrite CE. constructor.
    - rewrite CE. unfold zlen in LE. cbn [length]. lia.
    - apply Forall_forall. intros s H. apply repeat_spec in H. subst s. reflexivity. }
  destruct (srehash_spec (c + 2) ltac:(lia) (st_entries t) E 0 WE) as (es & H & W & Le & PM).
  - rewrite CE. unfold zlen in *. cbn [length]. lia.
  - rewrite CE, app_nil_r. exact ND.
  - rewrite H. cbn [obind]. eexists. split; [reflexivity|]. rewrite CE, app_nil_r in PM. split; [|cbn; lia].
    constructor; cbn [st_capacity st_entries st_count st_max_load].
    + exists (c + 2). split; [lia|auto].
    + reflexivity.
    + unfold zlen. rewrite (Permutation_length PM). lia.
    + right. rewrite half_pow by lia. replace (c + 2 - 1) with (c + 1) by lia. rewrite Z.pow_add_r by lia. lia.
    + intros k v. rewrite <- M. split; apply Permutation_in; [exact PM|symmetry; exact PM].
Qed.

Definition upd_map (m : Z -> Z) (k v : Z) : Z -> Z := fun k' => if k =? k' then v else m k'.

Lemma stable_set_spec t m k v : tinv t m -> k <> 0 -> v <> 0 -> st_count t + 1 < 2 ^ 28 ->
  exists t', stable_set t k v = Done (t', m k) /\ tinv t' (upd_map m k v) /\ st_count t' <= st_count t + 1.
Proof.
  intros [(c & C & Q & W) TL TC TS TM] K V B. pose proof TL as TL'. rewrite Q in TL'. unfold stable_set. replace (v =? 0) with false by lia.
  rewrite Q. destruct (sentry_find_spec (st_entries t) c k W K) as (i & F & Hi & D). rewrite F. cbn [obind].
  rewrite (fetch_nth _ _ (0, 0)) by exact Hi. rewrite <- (sl_small (0, 0)) by exact Hi. cbn [obind].
  destruct D as [[E1 K1]|(E1 & K1 & U)].
  - assert (IN : In (ssl (st_entries t) i) (scont (st_entries t))) by (apply (in_contents sem (0, 0)); exists i; auto).
    destruct (ssl (st_entries t) i) as (k1, v1) eqn:S. cbn [fst] in K1. subst k1. cbn [snd].
    apply TM in IN. destruct IN as (_ & V1 & Mk).
    assert (B1 : v1 <> 0) by exact V1.
    destruct (Z.eqb_spec v1 v) as [->|NE].
    + exists t. rewrite Mk. split; [reflexivity|]. split; [|lia]. constructor; try assumption; [exists c; auto|].
      intros k' v'. rewrite TM. unfold upd_map. destruct (Z.eqb_spec k k') as [<-|]; [rewrite Mk; reflexivity|reflexivity].
    + rewrite store_ok by exact Hi. cbn [obind]. replace (v1 =? 0) with false by lia.
      eexists. rewrite Mk. split; [reflexivity|]. split; [|cbn; lia].
      destruct (contents_replace sem (0, 0) (st_entries t) i (k, v) Hi) as (a & b & Ca & Cb); [rewrite S; exact E1|apply Z.eqb_neq; exact K|].
      rewrite S in Ca. fold scont in *. destruct W as [L0 C0 I0 ND0 R0 Z0].
      assert (MF : map fst (scont (upd (st_entries t) (Z.to_nat i) (k, v))) = map fst (scont (st_entries t))).
      { rewrite Ca, Cb, !map_app. reflexivity. }
      assert (LN : length (scont (upd (st_entries t) (Z.to_nat i) (k, v))) = length (scont (st_entries t))).
      { rewrite <- !(map_length fst), MF. reflexivity. }
      constructor; cbn [st_capacity st_entries st_count st_max_load]; try assumption.
      * exists c. split; [exact C|]. split; [reflexivity|]. constructor; try assumption.
        -- unfold zlen in *. rewrite upd_length. exact L0.
        -- apply (pinv_replace sem shome (0, 0) (st_entries t) c); first [assumption|rewrite S; exact E1|rewrite S; reflexivity|reflexivity].
        -- rewrite MF. exact ND0.
        -- rewrite LN, upd_length. exact R0.
        -- apply Forall_upd; [exact Z0|]. cbn. lia.
      * unfold zlen in *. rewrite LN. exact TC.
      * intros k' v'. rewrite Cb. assert (OLD : forall x, In x (a ++ b) <-> In x (scont (st_entries t)) /\ fst x <> k).
        { intros x. rewrite Ca. rewrite Ca, map_app in ND0. cbn [map fst] in ND0. apply NoDup_remove_2 in ND0. rewrite <- map_app in ND0.
          split.
          - intros H. split; [apply in_app_or in H; apply in_or_app; cbn; tauto|]. intros Zx. apply ND0. rewrite <- Zx. apply in_map. exact H.
          - intros [H1 H2]. apply in_app_or in H1. cbn in H1. apply in_or_app. destruct H1 as [H1|[H1|H1]]; auto. subst x. cbn in H2. lia. }
        unfold upd_map. split.
        -- intros H. apply in_app_or in H. cbn [In] in H. destruct (Z.eqb_spec k k') as [<-|NK].
           ++ destruct H as [H|[H|H]]; [exfalso|inversion H; lia|exfalso]; (assert (In (k, v') (a ++ b)) as H2 by (apply in_or_app; auto)); apply OLD in H2; cbn in H2; lia.
           ++ destruct H as [H|[H|H]]; [|inversion H; lia|]; (assert (In (k', v') (a ++ b)) as H2 by (apply in_or_app; auto)); apply OLD in H2; apply TM, H2.
        -- intros (H1 & H2 & H3). destruct (Z.eqb_spec k k') as [<-|NK]; [subst v'; apply in_or_app; cbn; auto|].
           assert (X : In (k', v') (a ++ b)) by (apply OLD; split; [apply TM; auto|cbn; lia]).
           apply in_app_or in X. apply in_or_app. cbn. tauto.
  - assert (S2 : snd (ssl (st_entries t) i) = 0).
    { destruct W as [L0 C0 I0 ND0 R0 Z0]. rewrite Forall_forall in Z0. apply Z0; [|unfold sem in E1; lia].
      rewrite sl_small by exact Hi. apply nth_In. unfold zlen in Hi. lia. }
    rewrite S2. replace (0 =? v) with false by lia. rewrite store_ok by exact Hi. cbn [obind]. change (0 =? 0) with true. cbn [obind].
    assert (MK : m k = 0).
    { destruct (Z.eq_dec (m k) 0) as [|NZ]; [assumption|]. exfalso. apply K1. apply (in_fst_map _ _ (m k)). apply TM. auto. }
    pose proof (contents_insert sem (0, 0) (st_entries t) i (k, v) Hi E1 ltac:(apply Z.eqb_neq; exact K)) as PM. fold scont in PM.
    destruct W as [L0 C0 I0 ND0 R0 Z0].
    assert (ND' : NoDup (map fst (scont (upd (st_entries t) (Z.to_nat i) (k, v))))).
    { apply (Permutation_NoDup (l := map fst ((k, v) :: scont (st_entries t)))); [apply Permutation_map; symmetry; exact PM|]. cbn [map fst]. constructor; [exact K1|exact ND0]. }
    assert (LN : zlen (scont (upd (st_entries t) (Z.to_nat i) (k, v))) = st_count t + 1).
    { unfold zlen. rewrite (Permutation_length PM). cbn [length]. unfold zlen in TC. lia. }
    assert (M' : forall k' v', In (k', v') (scont (upd (st_entries t) (Z.to_nat i) (k, v))) <-> k' <> 0 /\ v' <> 0 /\ upd_map m k v k' = v').
    { intros k' v'. assert (X : In (k', v') (scont (upd (st_entries t) (Z.to_nat i) (k, v))) <-> In (k', v') ((k, v) :: scont (st_entries t))).
      { split; apply Permutation_in; [exact PM|symmetry; exact PM]. }
      rewrite X. cbn [In]. rewrite TM. unfold upd_map. destruct (Z.eqb_spec k k') as [<-|NK].
      - rewrite MK. split; [intros [Zx|Zx]; [inversion Zx; subst v'; auto|lia]|]. intros (G1 & G2 & G3). left. congruence.
      - split; [intros [Zx|Zx]; [inversion Zx; lia|exact Zx]|auto]. }
    destruct (Z.leb_spec (st_max_load t) (st_count t + 1)) as [LD|LD].
    + assert (C29 : c < 29).
      { destruct (Z.lt_ge_cases c 29) as [|G]; [assumption|]. exfalso. rewrite TL, Q, half_pow in LD by lia.
        assert (2 ^ 28 <= 2 ^ (c - 1)) by (apply Z.pow_le_mono_r; lia). lia. }
      destruct (stable_resize_spec (ST (st_count t + 1) (2 ^ c) (st_max_load t) (upd (st_entries t) (Z.to_nat i) (k, v))) (upd_map m k v) c) as (t' & R1 & R2 & R3);
        cbn [st_capacity st_entries]; try assumption; try lia; try reflexivity.
      * unfold zlen in *. rewrite upd_length. exact L0.
      * rewrite LN. unfold zlen, scont in *. lia.
      * rewrite R1. cbn [obind]. exists t'. rewrite MK. split; [reflexivity|]. split; [exact R2|].
        rewrite R3. cbn [st_entries]. lia.
    + eexists. rewrite MK. split; [reflexivity|]. split; [|cbn; lia]. constructor; cbn [st_capacity st_entries st_count st_max_load]; try assumption.
      * exists c. split; [exact C|]. split; [reflexivity|]. constructor; try assumption.
        -- unfold zlen in *. rewrite upd_length. exact L0.
        -- apply U. reflexivity.
        -- rewrite upd_length. rewrite TL, Q in LD. unfold half in LD. unfold zlen in *. assert (2 ^ c / 2 <= 2 ^ c) by (apply Z.div_le_upper_bound; lia). lia.
        -- apply Forall_upd; [exact Z0|]. cbn. lia.
      * symmetry. exact LN.
      * right. exact LD.
Qed.

Lemma stable_get_spec t m k : tinv t m -> k <> 0 -> stable_get t k = Done (m k).
Proof.
  intros [(c & C & Q & W) TL TC TS TM] K. unfold stable_get. rewrite Q.
  destruct (sentry_find_spec (st_entries t) c k W K) as (i & F & Hi & D). rewrite F. cbn [obind].
  rewrite (fetch_nth _ _ (0, 0)) by exact Hi. rewrite <- (sl_small (0, 0)) by exact Hi. cbn [obind]. f_equal.
  destruct D as [[E1 K1]|(E1 & K1 & _)].
  - fold (sem (ssl (st_entries t) i)). rewrite E1.
    assert (IN : In (ssl (st_entries t) i) (scont (st_entries t))) by (apply (in_contents sem (0, 0)); exists i; auto).
    destruct (ssl (st_entries t) i) as (k1, v1). cbn [fst snd] in *. subst k1. apply TM in IN. symmetry. apply IN.
  - fold (sem (ssl (st_entries t) i)). rewrite E1. destruct (Z.eq_dec (m k) 0) as [|NZ]; [congruence|].
    exfalso. apply K1. apply (in_fst_map _ _ (m k)). apply TM. auto.
Qed.

Lemma stable_init_inv c : 0 <= c <= 28 -> tinv (stable_init (2 ^ c)) (fun _ => 0).
Proof.
  intros C. assert (P : 0 < 2 ^ c) by (apply Z.pow_pos_nonneg; lia).
  assert (L : zlen (repeat (0, 0) (Z.to_nat (2 ^ c))) = 2 ^ c) by (apply repeat_zlen; lia).
  assert (CE : scont (repeat (0, 0) (Z.to_nat (2 ^ c))) = []) by (apply contents_empty; reflexivity).
  constructor; cbn [stable_init st_capacity st_entries st_count st_max_load].
  - exists c. split; [lia|]. split; [reflexivity|]. constructor; try assumption; try lia.
    + apply pinv_empty. reflexivity.
    + rewrite CE. constructor.
    + rewrite CE. cbn [length]. unfold zlen in L. lia.
    + apply Forall_forall. intros s H. apply repeat_spec in H. subst s. reflexivity.
  - reflexivity.
  - rewrite CE. reflexivity.
  - auto.
  - intros k v. rewrite CE. cbn [In]. lia.
Qed.

Lemma last_set_snoc h p k : last_set (h ++ [p]) k = if fst p =? k then snd p else last_set h k.
Proof. unfold last_set. rewrite fold_left_app. reflexivity. Qed.

Lemma stable_run_spec : forall todo past t,
  tinv t (last_set past) -> writes_ok todo -> st_count t <= zlen past -> zlen past + zlen todo < 2 ^ 28 ->
  exists t' olds, stable_run t todo = Done (t', olds) /\ tinv t' (last_set (past ++ todo)) /\
    olds = answers (fun before p => last_set before (fst p)) past todo.
Proof.
  induction todo as [|(k, v) todo IH]; intros past t I W N B.
  - exists t, []. rewrite app_nil_r. cbn. auto.
  - inversion W as [|x y [Wk Wv] Wr]. subst. cbn [fst snd] in *. unfold ptr_ok in *. rewrite zlen_cons in B. pose proof (zlen_nonneg todo).
    destruct (stable_set_spec t (last_set past) k v I) as (t1 & S1 & I1 & N1); try lia.
    destruct (IH (past ++ [(k, v)]) t1) as (t2 & olds & R & I2 & E).
    + destruct I1 as [A1 A2 A3 A4 A5]. constructor; try assumption. intros k' v'. rewrite A5, last_set_snoc. reflexivity.
    + exact Wr.
    + rewrite zlen_app, zlen_cons, zlen_nil. lia.
    + rewrite zlen_app, zlen_cons, zlen_nil. lia.
    + exists t2, (last_set past k :: olds). cbn [stable_run]. rewrite S1. cbn [obind]. rewrite R. cbn [obind].
      split; [reflexivity|]. rewrite <- app_assoc in I2. split; [exact I2|]. cbn [answers fst]. rewrite E. reflexivity.
Qed.

(** ** The chained table *)
Record hinv (t : htable) (hist : list (Z * Z)) : Prop := HINV {
  h_c : exists c, 0 <= c <= 31 /\ ht_mask t = 2 ^ c - 1 /\ 2 ^ c <= zlen (ht_entries t);
  h_map : forall k chain, fetch (ht_entries t) (ht_index t k) = Done chain ->
          match find (fun e => fst e =? k) chain with Some e => snd e | None => 0 end = first_set hist k;
  h_nz : Forall (Forall (fun e => snd e <> 0)) (ht_entries t) }.

Lemma ht_index_range t c k : 0 <= c <= 31 -> ht_mask t = 2 ^ c - 1 -> 0 <= ht_index t k < 2 ^ c.
Proof.
  intros C M. unfold ht_index. rewrite M, land_mask by lia.
  assert (P : 2 ^ c <= 2 ^ 31) by (apply Z.pow_le_mono_r; lia). assert (P0 : 0 < 2 ^ c) by (apply Z.pow_pos_nonneg; lia).
  pose proof (Z.mod_pos_bound (Z.lxor k (Z.shiftr k 8)) (2 ^ c) P0). rewrite Z.mod_small by lia. lia.
Qed.
Lemma first_set_snoc h k v k' : writes_ok h ->
  first_set (h ++ [(k, v)]) k' = if first_set h k' =? 0 then (if k =? k' then v else 0) else first_set h k'.
Proof.
  intros W. induction W as [|(k1, v1) h [_ V1] W IH]; cbn [app first_set]; [reflexivity|].
  destruct (Z.eqb_spec k1 k'); [|exact IH]. cbn in V1. unfold ptr_ok in V1. replace (v1 =? 0) with false by lia. reflexivity.
Qed.
Lemma find_some_in {A} (f : A -> bool) l x : find f l = Some x -> In x l /\ f x = true.
Proof. apply find_some. Qed.

Lemma htable_get_spec t h k : hinv t h -> htable_get t k = Done (first_set h k).
Proof.
  intros [(c & C & M & L) HM HN]. unfold htable_get. pose proof (ht_index_range t c k C M).
  pose proof (HM k) as X. rewrite (fetch_nth _ _ []) in * by lia. specialize (X _ eq_refl). cbn [obind].
  destruct (find _ _); congruence.
Qed.
Lemma htable_set_spec t h k v : hinv t h -> writes_ok h -> ptr_ok k -> ptr_ok v ->
  exists t', htable_set t k v = Done (t', first_set h k) /\ hinv t' (h ++ [(k, v)]).
Proof.
  intros [(c & C & M & L) HM HN] W K V. unfold htable_set, ptr_ok in *. replace (v =? 0) with false by lia.
  pose proof (ht_index_range t c k C M) as R. pose proof (HM k) as X.
  rewrite (fetch_nth _ _ []) in * by lia. specialize (X _ eq_refl). cbn [obind].
  set (chain := nth (Z.to_nat (ht_index t k)) (ht_entries t) []) in *.
  assert (CN : Forall (fun e => snd e <> 0) chain).
  { rewrite Forall_forall in HN. apply HN. apply nth_In. unfold zlen in L. lia. }
  destruct (find (fun e => fst e =? k) chain) as [e|] eqn:F.
  - exists t. rewrite X. split; [reflexivity|]. constructor; [exists c; auto| |exact HN].
    intros k' ch G. rewrite (HM k' ch G), first_set_snoc by exact W.
    destruct (Z.eqb_spec (first_set h k') 0) as [E|]; [|reflexivity]. destruct (Z.eqb_spec k k') as [<-|]; [|exact E].
    exfalso. apply find_some_in in F. rewrite Forall_forall in CN. apply (CN e); [apply F|congruence].
  - rewrite store_ok by lia. cbn [obind]. rewrite <- X. eexists. split; [reflexivity|].
    constructor; cbn [ht_mask ht_entries ht_bytes].
    + exists c. split; [lia|]. split; [exact M|]. unfold zlen in *. rewrite upd_length. exact L.
    + intros k' ch. match goal with |- fetch _ ?x = _ -> _ => change x with (ht_index t k') end. pose proof (ht_index_range t c k' C M) as R'.
      assert (LU : zlen (upd (ht_entries t) (Z.to_nat (ht_index t k)) ((k, v) :: chain)) = zlen (ht_entries t)) by (unfold zlen; rewrite upd_length; reflexivity).
      rewrite (fetch_nth _ _ []) by lia. rewrite nth_upd by (unfold zlen in L; lia). intros [= <-].
      pose proof (HM k') as Y. rewrite (fetch_nth _ _ []) in Y by lia. specialize (Y _ eq_refl). rewrite first_set_snoc by exact W.
      destruct (Nat.eqb_spec (Z.to_nat (ht_index t k')) (Z.to_nat (ht_index t k))) as [E|E].
      * rewrite E in Y. fold chain in Y. cbn [find fst]. destruct (Z.eqb_spec k k') as [<-|NK].
        -- cbn [snd]. rewrite <- X, Z.eqb_refl. reflexivity.
        -- rewrite <- Y. destruct (find (fun e => fst e =? k') chain) as [e|] eqn:G; [|reflexivity].
           destruct (Z.eqb_spec (snd e) 0) as [Q|]; [exact Q|reflexivity].
      * assert (NK : k <> k') by (intros <-; apply E; reflexivity). replace (k =? k') with false by lia.
        rewrite Y. destruct (Z.eqb_spec (first_set h k') 0) as [Q|]; [exact Q|reflexivity].
    + apply Forall_upd; [exact HN|]. constructor; [cbn; lia|exact CN].
Qed.
Lemma htable_init_inv n : 1 <= n <= 2 ^ 31 -> hinv (htable_init n) [].
Proof.
  intros N. destruct (next_pow2_spec n N) as (c & C & E & B). constructor; cbn [htable_init ht_mask ht_entries].
  - exists c. split; [exact C|]. rewrite E. split; [reflexivity|]. replace (n * 24 / 8) with (n * 3) by (replace (n * 24) with (n * 3 * 8) by lia; rewrite Z.div_mul; lia).
    rewrite repeat_zlen by lia. lia.
  - intros k chain F. assert (X : In chain (repeat (@nil (Z * Z)) (Z.to_nat (n * 24 / 8)))).
    { pose proof (fetch_inv _ _ _ F) as R. rewrite (fetch_nth _ _ []) in F by exact R. injection F as <-. apply nth_In. unfold zlen in R. lia. }
    apply repeat_spec in X. subst chain. reflexivity.
  - apply Forall_forall. intros x X. apply repeat_spec in X. subst x. constructor.
Qed.
Lemma htable_run_spec : forall todo past t,
  hinv t past -> writes_ok past -> writes_ok todo ->
  exists t' olds, htable_run t todo = Done (t', olds) /\ hinv t' (past ++ todo) /\
    olds = answers (fun before p => first_set before (fst p)) past todo.
Proof.
  induction todo as [|(k, v) todo IH]; intros past t I Wp W.
  - exists t, []. rewrite app_nil_r. cbn. auto.
  - inversion W as [|x y [Wk Wv] Wr]. subst. cbn [fst snd] in *.
    destruct (htable_set_spec t past k v I Wp Wk Wv) as (t1 & S1 & I1).
    destruct (IH (past ++ [(k, v)]) t1 I1) as (t2 & olds & R & I2 & E).
    + unfold writes_ok in *. apply Forall_app. split; [exact Wp|]. constructor; [auto|constructor].
    + exact Wr.
    + exists t2, (first_set past k :: olds). cbn [htable_run]. rewrite S1. cbn [obind]. rewrite R. cbn [obind].
      split; [reflexivity|]. rewrite <- app_assoc in I2. split; [exact I2|]. cbn [answers fst]. rewrite E. reflexivity.
Qed.

(** ** The symbol table *)
Lemma bytes_eqb_eq a : forall b, bytes_eqb a b = true <-> a = b.
Proof.
  induction a as [|x a IH]; intros [|y b]; cbn; try (split; congruence). rewrite andb_true_iff, IH. split; [intros [H1 ->]; f_equal; lia|].
  intros [= -> ->]. split; [apply Z.eqb_refl|reflexivity].
Qed.
Lemma fnv_app a b : fold_left fnv_step (a ++ b) 2166136261 = fold_left fnv_step b (fnv1a a).
Proof. apply fold_left_app. Qed.
Lemma fnv_range text : 0 <= fnv1a text < 2 ^ 32.
Proof.
  unfold fnv1a. assert (H : 0 <= 2166136261 < 2 ^ 32) by lia. revert H. generalize 2166136261. induction text as [|c text IH]; intros h H; cbn [fold_left]; [exact H|].
  apply IH. unfold fnv_step. apply Z.mod_pos_bound. lia.
Qed.

(** The invariant: what is stored is what was inserted, once per spelling, with the handle it was given. *)
Definition sgood (b : sentry) : Prop := se_len b = zlen (se_text b) /\ se_index b = fnv1a (se_text b).
Lemma sentry_is_spec text b : sgood b -> sentry_is text (fnv1a text) b = true <-> se_text b = text.
Proof.
  intros [G1 G2]. unfold sentry_is. rewrite !andb_true_iff, bytes_eqb_eq. split.
  - intros [[H1 H2] H3]. rewrite G1 in H2. rewrite H3. unfold zlen in H2. rewrite firstn_all2 by lia. reflexivity.
  - intros <-. rewrite G1, G2, firstn_all, !Z.eqb_refl. auto.
Qed.
Definition text_in (st : symtab) (b : sentry) : Prop :=
  exists chain, fetch (sy_bucket st) (Z.land (fnv1a (se_text b)) (sy_mask st)) = Done chain /\ In b chain.
Record syinv (st : symtab) : Prop := SYI {
  y_c : exists c, 0 <= c <= 31 /\ sy_mask st = 2 ^ c - 1 /\ zlen (sy_bucket st) = 2 ^ c;
  y_good : forall i chain b, fetch (sy_bucket st) i = Done chain -> In b chain -> sgood b /\ 0 < se_addr b < sy_next st /\ Z.land (fnv1a (se_text b)) (sy_mask st) = i;
  y_text : forall b b', text_in st b -> text_in st b' -> se_text b = se_text b' -> b = b';
  y_addr : forall b b', text_in st b -> text_in st b' -> se_addr b = se_addr b' -> b = b';
  y_pos : 0 < sy_next st }.
Definition st_lookup (st : symtab) (text : list Z) (h ty : Z) : Prop :=
  exists b, text_in st b /\ se_text b = text /\ se_addr b = h /\ se_type b = ty.

Lemma sym_pos st c text : 0 <= c <= 31 -> sy_mask st = 2 ^ c - 1 -> 0 <= Z.land (fnv1a text) (sy_mask st) < 2 ^ c.
Proof. intros C ->. rewrite land_mask by lia. apply Z.mod_pos_bound. apply Z.pow_pos_nonneg; lia. Qed.

Lemma sym_find st text : syinv st ->
  exists chain, fetch (sy_bucket st) (Z.land (fnv1a text) (sy_mask st)) = Done chain /\
   match find (sentry_is text (fnv1a text)) chain with
   | Some b => text_in st b /\ se_text b = text
   | None => forall b, text_in st b -> se_text b <> text
   end.
Proof.
  intros [(c & C & M & L) G T A P]. pose proof (sym_pos st c text C M) as R.
  set (pos := Z.land (fnv1a text) (sy_mask st)) in *. rewrite <- L in R.
  pose proof (fetch_nth (sy_bucket st) pos [] R) as F. eexists. split; [exact F|].
  set (chain := nth (Z.to_nat pos) (sy_bucket st) []) in *.
  destruct (find (sentry_is text (fnv1a text)) chain) as [b|] eqn:E.
  - apply find_some in E. destruct E as [E1 E2]. destruct (G pos chain b F E1) as (Gb & _ & Pb).
    apply sentry_is_spec in E2; [|exact Gb]. split; [|exact E2]. exists chain. rewrite Pb. auto.
  - intros b (ch & F' & I') Q. rewrite Q in F'. fold pos in F'. rewrite F in F'. injection F' as <-.
    pose proof (find_none _ _ E b I') as X. destruct (G pos chain b F I') as (Gb & _ & _).
    assert (sentry_is text (fnv1a text) b = true) by (apply sentry_is_spec; assumption). congruence.
Qed.

Lemma symtab_add_spec st text ty : syinv st -> zlen text < 2 ^ 16 ->
  exists st' h ty', symtab_add st text (fnv1a text) ty = Done (st', h, ty') /\ syinv st' /\
    st_lookup st' text h ty' /\ (forall b, text_in st b -> text_in st' b) /\
    (forall b, text_in st' b -> text_in st b \/ (se_text b = text /\ se_type b = ty)) /\
    ((exists b, text_in st b /\ se_text b = text) \/ ty' = ty).
Proof.
  intros I B. destruct (sym_find st text I) as (chain & F & D). unfold symtab_add. rewrite F. cbn [obind].
  destruct (find (sentry_is text (fnv1a text)) chain) as [b|] eqn:E.
  - exists st, (se_addr b), (se_type b). split; [reflexivity|]. split; [exact I|]. destruct D as [D1 D2].
    split; [exists b; auto|]. split; [auto|]. split; [auto|]. left. exists b. auto.
  - pose proof (fetch_inv _ _ _ F) as R. rewrite store_ok by exact R. cbn [obind].
    set (node := new_entry st text (fnv1a text) ty). set (pos := Z.land (fnv1a text) (sy_mask st)) in *.
    set (st' := Sym (sy_mask st) (upd (sy_bucket st) (Z.to_nat pos) (node :: chain)) (sy_next st + 1)).
    destruct I as [(c & C & M & L) G T A P].
    assert (LU : zlen (upd (sy_bucket st) (Z.to_nat pos) (node :: chain)) = zlen (sy_bucket st)) by (unfold zlen; rewrite upd_length; reflexivity).
    assert (FN : forall i ch, fetch (sy_bucket st') i = Done ch -> (i = pos /\ ch = node :: chain) \/ (i <> pos /\ fetch (sy_bucket st) i = Done ch)).
    { intros i ch H. pose proof (fetch_inv _ _ _ H) as Ri. cbn [st' sy_bucket] in H, Ri. rewrite (fetch_nth _ _ []) in H by exact Ri.
      rewrite LU in Ri. rewrite nth_upd in H by (unfold zlen in R; lia). injection H as H.
      destruct (Nat.eqb_spec (Z.to_nat i) (Z.to_nat pos)) as [X|X]; [left; split; [lia|congruence]|right]. split; [intros ->; auto|].
      rewrite (fetch_nth _ _ []) by exact Ri. congruence. }
    assert (FP : fetch (sy_bucket st') pos = Done (node :: chain)).
    { cbn [st' sy_bucket]. rewrite (fetch_nth _ _ []) by lia. rewrite nth_upd by (unfold zlen in R; lia). rewrite Nat.eqb_refl. reflexivity. }
    assert (FO : forall i, i <> pos -> fetch (sy_bucket st') i = fetch (sy_bucket st) i).
    { intros i Ni. cbn [st' sy_bucket]. unfold fetch, get. destruct (Z.ltb_spec i 0); [reflexivity|].
      assert (X : nth_error (upd (sy_bucket st) (Z.to_nat pos) (node :: chain)) (Z.to_nat i) = nth_error (sy_bucket st) (Z.to_nat i)); [|rewrite X; reflexivity].
      assert (Np : Z.to_nat pos <> Z.to_nat i) by lia. revert Np. generalize (Z.to_nat pos) (Z.to_nat i) (node :: chain). clear.
      induction (sy_bucket st) as [|a l IH]; intros [|n] [|m] x N; cbn; try reflexivity; [congruence|]. apply IH. congruence. }
    assert (TI : forall b, text_in st' b <-> text_in st b \/ b = node).
    { intros b. unfold text_in. cbn [st' sy_mask]. split.
      - intros (ch & H & Hin). apply FN in H. destruct H as [[Ep ->]|[Np H]].
        + destruct Hin as [<-|Hin]; [auto|]. left. exists chain. rewrite Ep. auto.
        + left. exists ch. auto.
      - intros [(ch & H & Hin)| ->].
        + destruct (Z.eq_dec (Z.land (fnv1a (se_text b)) (sy_mask st)) pos) as [Ep|Np].
          * rewrite Ep in *. rewrite F in H. injection H as <-. exists (node :: chain). split; [exact FP|right; exact Hin].
          * exists ch. fold st'. rewrite (FO _ Np). auto.
        + exists (node :: chain). split; [exact FP|left; reflexivity]. }
    assert (GB : forall b, text_in st b -> 0 < se_addr b < sy_next st).
    { intros b (ch & H & Hin). apply (G _ _ _ H Hin). }
    exists st', (sy_next st), ty. split; [reflexivity|]. split; [|split; [|split; [|split]]].
    + constructor.
      * exists c. cbn [st' sy_mask sy_bucket]. rewrite LU. auto.
      * intros i ch b H Hin. apply FN in H. destruct H as [[-> ->]|[Np H]].
        -- destruct Hin as [<-|Hin].
           ++ cbn [node new_entry se_addr se_text st' sy_next sy_mask]. split; [|split; [lia|reflexivity]]. split; cbn; [|reflexivity].
              apply Z.mod_small. pose proof (zlen_nonneg text). lia.
           ++ destruct (G _ _ _ F Hin) as (G1 & G2 & G3). cbn [st' sy_next sy_mask]. split; [exact G1|]. split; [lia|exact G3].
        -- destruct (G _ _ _ H Hin) as (G1 & G2 & G3). cbn [st' sy_next sy_mask]. split; [exact G1|]. split; [lia|exact G3].
      * intros b b' H H' Q. apply TI in H, H'. destruct H as [H| ->], H' as [H'| ->]; [auto| | |reflexivity]; exfalso.
        -- apply (D b H). exact Q.
        -- apply (D b' H'). symmetry. exact Q.
      * intros b b' H H' Q. apply TI in H, H'. destruct H as [H| ->], H' as [H'| ->]; [auto| | |reflexivity]; exfalso.
        -- apply GB in H. cbn [node new_entry se_addr] in Q. lia.
        -- apply GB in H'. cbn [node new_entry se_addr] in Q. lia.
      * cbn [st' sy_next]. lia.
    + exists node. split; [apply TI; auto|]. repeat split.
    + intros b H. apply TI. auto.
    + intros b H. apply TI in H. destruct H as [H| ->]; auto.
    + auto.
Qed.

Lemma symtab_init_inv cap : 256 <= cap <= 2 ^ 31 -> syinv (symtab_init cap) /\ forall b, ~ text_in (symtab_init cap) b.
Proof.
  intros H. destruct (next_pow2_spec cap ltac:(lia)) as (c & C & E & B).
  assert (N : forall i ch, fetch (sy_bucket (symtab_init cap)) i = Done ch -> ch = []).
  { intros i ch F. pose proof (fetch_inv _ _ _ F) as R. cbn [symtab_init sy_bucket] in *. rewrite (fetch_nth _ _ []) in F by exact R.
    rewrite nth_repeat in F. congruence. }
  assert (N2 : forall b, ~ text_in (symtab_init cap) b).
  { intros b (ch & F & I). apply N in F. subst ch. exact I. }
  split; [|exact N2]. constructor.
  - exists c. cbn [symtab_init sy_mask sy_bucket]. rewrite E. split; [exact C|]. split; [reflexivity|]. apply repeat_zlen. lia.
  - intros i ch b F I. apply N in F. subst ch. contradiction.
  - intros b b' I. exfalso. eapply N2, I.
  - intros b b' I. exfalso. eapply N2, I.
  - cbn. lia.
Qed.

Lemma first_type_none hist text : first_type hist text = None <-> ~ In text (map fst hist).
Proof.
  induction hist as [|(t, ty) hist IH]; cbn; [tauto|]. destruct (list_eq_dec Z.eq_dec t text) as [->|N]; [|rewrite IH; tauto]. split; [congruence|]. intros X. exfalso. auto.
Qed.
Lemma first_type_snoc hist t ty text : first_type (hist ++ [(t, ty)]) text =
  match first_type hist text with Some x => Some x | None => if list_eq_dec Z.eq_dec t text then Some ty else None end.
Proof. induction hist as [|(t', ty') hist IH]; cbn; [reflexivity|]. destruct (list_eq_dec Z.eq_dec t' text); [reflexivity|exact IH]. Qed.

Definition all_types (st : symtab) (past : list (list Z * Z)) : Prop :=
  forall text, match first_type past text with Some ty => exists h, st_lookup st text h ty | None => forall b, text_in st b -> se_text b <> text end.
Lemma lookup_fun st t h ty h' ty' : syinv st -> st_lookup st t h ty -> st_lookup st t h' ty' -> h = h' /\ ty = ty'.
Proof. intros I (b & H1 & H2 & H3 & H4) (b' & G1 & G2 & G3 & G4). assert (b = b') by (apply (y_text st I); congruence). subst b'. split; congruence. Qed.

Lemma intern_all_spec : forall todo past st,
  syinv st -> all_types st past -> Forall (fun p => zlen (fst p) < 2 ^ 16) todo ->
  exists st' rs, intern_all st todo = Done (st', rs) /\ syinv st' /\ all_types st' (past ++ todo) /\
    (forall b, text_in st b -> text_in st' b) /\
    Forall2 (fun p r => st_lookup st' (fst p) (fst r) (snd r)) todo rs.
Proof.
  induction todo as [|(text, ty) todo IH]; intros past st I AT B.
  - exists st, []. rewrite app_nil_r. cbn. auto.
  - inversion B as [|x y B1 B2]. subst. cbn [fst] in B1.
    destruct (symtab_add_spec st text ty I B1) as (st1 & h & ty1 & A & I1 & LK & MO & NEW & TY).
    destruct (IH (past ++ [(text, ty)]) st1 I1) as (st2 & rs & R & I2 & AT2 & MO2 & F).
    + intros t. specialize (AT t). rewrite first_type_snoc. destruct (first_type past t) as [tt|] eqn:E.
      * destruct AT as (h1 & b & X1 & X2). exists h1, b. auto.
      * destruct (list_eq_dec Z.eq_dec text t) as [<-|NE].
        -- destruct TY as [(b & X1 & X2)|<-]; [exfalso; apply (AT b X1 X2)|]. exists h. exact LK.
        -- intros b X Q. destruct (NEW b X) as [Y|[Y _]]; [apply (AT b Y Q)|congruence].
    + exact B2.
    + exists st2, ((h, ty1) :: rs). cbn [intern_all]. rewrite A. cbn [obind]. rewrite R. cbn [obind]. split; [reflexivity|]. split; [exact I2|].
      rewrite <- app_assoc in AT2. split; [exact AT2|]. split; [auto|]. constructor; [|exact F]. cbn [fst snd]. destruct LK as (b & X). exists b. intuition.
Qed.

Lemma symtab_history cap hist : 256 <= cap <= 2 ^ 31 -> Forall (fun p => zlen (fst p) < 2 ^ 16) hist ->
  exists st rs, intern_all (symtab_init cap) hist = Done (st, rs) /\ handles_identify hist rs /\
    Forall2 (fun p r => first_type hist (fst p) = Some (snd r)) hist rs /\
    (forall text, symtab_find st text (fnv1a text) = Done (match first_type hist text with
        | None => None
        | Some ty => Some (nth 0 (map (fun pr => fst (snd pr)) (filter (fun pr => if list_eq_dec Z.eq_dec (fst (fst pr)) text then true else false) (combine hist rs))) 0, ty) end)).
Proof.
  intros C B. destruct (symtab_init_inv cap C) as [I0 N0].
  destruct (intern_all_spec hist [] (symtab_init cap) I0) as (st & rs & R & I & AT & _ & F); [intros t; cbn; intros b H; exfalso; eapply N0, H|exact B|].
  exists st, rs. split; [exact R|]. cbn [app] in AT. split; [|split].
  - split; [clear - F; induction F; cbn [length]; congruence|]. intros i j ti tj hi hj E1 E2 E3 E4.
    assert (X : forall n p r, nth_error hist n = Some p -> nth_error rs n = Some r -> st_lookup st (fst p) (fst r) (snd r)).
    { clear - F. induction F as [|p r hist rs H F IH]; intros [|n] p' r' H1 H2; cbn in H1, H2; try discriminate; [congruence|]. eapply IH; eassumption. }
    pose proof (X _ _ _ E1 E3) as (b & X1 & X2 & X3 & _). pose proof (X _ _ _ E2 E4) as (b' & Y1 & Y2 & Y3 & _). split; intros Q.
    + assert (b = b') by (apply (y_addr st I); congruence). congruence.
    + assert (b = b') by (apply (y_text st I); congruence). congruence.
  - clear R. assert (X : Forall (fun p => In (fst p) (map fst hist)) hist) by (apply Forall_forall; intros p P; apply in_map, P).
    assert (Y : forall h1 : list (list Z * Z), Forall (fun p => In (fst p) (map fst hist)) h1 -> forall r1, Forall2 (fun p r => st_lookup st (fst p) (fst r) (snd r)) h1 r1 -> Forall2 (fun p r => first_type hist (fst p) = Some (snd r)) h1 r1).
    { intros h1 X1 r1 F1. induction F1 as [|p r h1 r1 H F1 IH]; [constructor|]. inversion X1 as [|x y X2 X3]. subst. constructor; [|apply IH; exact X3].
      specialize (AT (fst p)). destruct (first_type hist (fst p)) as [tt|] eqn:E.
      - destruct AT as (h & L). destruct (lookup_fun _ _ _ _ _ _ I H L). congruence.
      - apply first_type_none in E. contradiction. }
    apply Y; assumption.
  - intros text. unfold symtab_find. destruct (sym_find st text I) as (chain & G & D). rewrite G. cbn [obind].
    specialize (AT text). destruct (find (sentry_is text (fnv1a text)) chain) as [b|] eqn:E.
    + destruct D as [D1 D2]. destruct (first_type hist text) as [tt|] eqn:FT; [|exfalso; apply (AT b D1 D2)].
      destruct AT as (h & L). destruct (lookup_fun st text (se_addr b) (se_type b) h tt I) as [<- <-]; [exists b; auto|exact L|].
      do 3 f_equal. assert (IN : In text (map fst hist)).
      { destruct (in_dec (list_eq_dec Z.eq_dec) text (map fst hist)) as [|N]; [assumption|]. apply first_type_none in N. congruence. }
      clear - IN F D1 D2 I. induction F as [|p r hist rs H F IH]; [contradiction|]. cbn [combine filter]. cbn [fst].
      destruct (list_eq_dec Z.eq_dec (fst p) text) as [Q|Q].
      * cbn [map nth snd]. destruct H as (b' & H1 & H2 & H3 & H4). rewrite <- H3. f_equal. apply (y_text st I); congruence.
      * apply IH. cbn in IN. destruct IN; [contradiction|assumption].
    + destruct (first_type hist text) as [tt|]; [|reflexivity]. exfalso. destruct AT as (h & b & X1 & X2 & _). apply (D b X1 X2).
Qed.
