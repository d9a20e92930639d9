(** The on-stack allocator keeps its promises. *)
From Coq Require Import ZArith Bool List Lia ZifyBool Permutation.
From Verif Require Import Word AlcSpec AlcMem AlcBack AlcOModel AlcOSpec AlcProofs AlcBProofs.
Import ListNotations.
Open Scope Z_scope.

Definition ptrs (cs : list chunk) : list Z := flat_map (fun c => [ck_self c; ck_data c]) cs.
Definition ohd (base len p : Z) : Z := if (base <=? p) && (p <? base + len) then 8 else 0.
Lemma ohd_pos base len p : 0 <= ohd base len p <= 8. Proof. unfold ohd. destruct (_ && _); lia. Qed.
Lemma ohd_in base len p : base <= p < base + len -> ohd base len p = 8.
Proof. intros H. unfold ohd. replace ((base <=? p) && (p <? base + len)) with true by lia. reflexivity. Qed.
Lemma ohd_out base len p : p < base \/ base + len <= p -> ohd base len p = 0.
Proof. intros H. unfold ohd. replace ((base <=? p) && (p <? base + len)) with false by lia. reflexivity. Qed.

(** The chunk chain and the live regions. *)
Record chain (base len : Z) (b : backing) (cs : list chunk) : Prop := {
  ch_rok : rok (bk_live b);
  ch_buf : In (base, len) (bk_live b);
  ch_nodup : NoDup (base :: ptrs cs);
  ch_self : forall c, In c cs -> In (ck_self c, chunk_size) (bk_live b);
  ch_data : forall c, In c cs -> exists n, In (ck_data c, n) (bk_live b) }.
Record oinv (l : ledger) (s : onstack) : Prop := {
  oi_used : 0 <= os_used s <= os_len s;
  oi_chain : chain (os_base s) (os_len s) (os_bk s) (os_chunks s);
  oi_blocks : forall p d, In (p, d) l -> 0 < size_of d /\ bytes_at (os_mem s) p (size_of d) = d /\
     ((os_base s + 8 <= p /\ p + size_of d <= os_base s + os_used s /\ ld8 (os_mem s) (p - 8) = size_of d) \/
      (In (p, size_of d) (bk_live (os_bk s)) /\ exists c, In c (os_chunks s) /\ ck_data c = p));
  oi_apart : gapart (ohd (os_base s) (os_len s)) l }.

Lemma ptrs_in cs c : In c cs -> In (ck_self c) (ptrs cs) /\ In (ck_data c) (ptrs cs).
Proof. intros H. unfold ptrs. split; apply in_flat_map; exists c; (split; [exact H|]); cbn; tauto. Qed.
Lemma chain_live base len b cs p : chain base len b cs -> In p (base :: ptrs cs) -> exists n, In (p, n) (bk_live b).
Proof.
  intros C [<-|H]; [exists len; apply C|]. unfold ptrs in H. apply in_flat_map in H. destruct H as (c & I & [<-|[<-|[]]]).
  - exists chunk_size. apply (ch_self _ _ _ _ C). exact I.
  - apply (ch_data _ _ _ _ C). exact I.
Qed.
Lemma chain_data_out base len b cs c : chain base len b cs -> In c cs -> exists n, In (ck_data c, n) (bk_live b) /\ (ck_data c + n <= base \/ base + len <= ck_data c) /\ 0 < n.
Proof.
  intros C I. destruct (ch_data _ _ _ _ C c I) as (n & L). exists n. split; [exact L|].
  assert (NE : ck_data c <> base).
  { intros E. pose proof (ch_nodup _ _ _ _ C) as ND. apply NoDup_cons_iff in ND. destruct ND as [ND _]. apply ND. rewrite <- E. apply ptrs_in. exact I. }
  pose proof (rok_apart _ _ _ _ _ (ch_rok _ _ _ _ C) L (ch_buf _ _ _ _ C) NE) as A. pose proof (rok_in _ _ _ (ch_rok _ _ _ _ C) L) as X.
  unfold apart in A. lia.
Qed.
Lemma oinv_data l s p d : oinv l s -> In (p, d) l -> (exists c, In c (os_chunks s) /\ ck_data c = p) -> In (p, size_of d) (bk_live (os_bk s)) ->
  p + size_of d <= os_base s \/ os_base s + os_len s <= p.
Proof.
  intros [U C K X] I (c & CI & <-) L. destruct (chain_data_out _ _ _ _ _ C CI) as (n & L' & O & _).
  rewrite (rok_uniq _ _ _ _ (ch_rok _ _ _ _ C) L L'). exact O.
Qed.
(** What a block takes up is live memory. *)
Lemma foot_live l s p d x : oinv l s -> In (p, d) l -> p - ohd (os_base s) (os_len s) p <= x < p + size_of d -> live_at (bk_live (os_bk s)) x.
Proof.
  intros O I Hx. pose proof O as [U C K X]. destruct (K p d I) as (K1 & K2 & [(K3 & K4 & K5)|(K3 & K4)]).
  - exists (os_base s), (os_len s). split; [apply C|]. rewrite ohd_in in Hx by lia. lia.
  - exists p, (size_of d). split; [exact K3|]. rewrite ohd_out in Hx; [lia|]. pose proof (oinv_data l s p d O I K4 K3). lia.
Qed.
Lemma oinv_ptr l s p d e : oinv l s -> In (p, d) l -> In (p, e) l -> d = e.
Proof.
  intros [U C K X] I J. destruct (gapart_in _ l X p d p e I J) as [E|E]; [congruence|].
  destruct (K _ _ I) as (P1 & _). destruct (K _ _ J) as (P2 & _). unfold apart in E. pose proof (ohd_pos (os_base s) (os_len s) p). lia.
Qed.
Lemma oinv_true l s : oinv l s -> true_of (onstack_owns s) (os_mem s) l.
Proof.
  intros [U C K X]. split; [|apply (gapart_apart (ohd (os_base s) (os_len s))); [intros x; apply ohd_pos|exact X]]. apply Forall_forall. intros [p d] I.
  destruct (K p d I) as (K1 & K2 & K3). cbn [fst snd]. split; [exact K2|]. unfold onstack_owns. destruct K3 as [K3|[K3 _]]; [left; lia|right; exact K3].
Qed.
Lemma oinv_sub l l' s : oinv l s -> (forall b, In b l' -> In b l) -> gapart (ohd (os_base s) (os_len s)) l' -> oinv l' s.
Proof. intros [U C K X] S Y. constructor; try assumption. intros p d I. apply K. apply S. exact I. Qed.
Lemma oinv_forget l s p : oinv l s -> oinv (forget p l) s.
Proof. intros I. apply (oinv_sub l); [exact I|intros b Q; apply filter_In in Q; tauto|apply gapart_filter; apply I]. Qed.

(** A change of memory and regions that spares what the blocks held take up. *)
Lemma oinv_frame l s b' used' cs' m' : oinv l s -> os_used s <= used' <= os_len s -> chain (os_base s) (os_len s) b' cs' ->
  (forall p d x, In (p, d) l -> p - ohd (os_base s) (os_len s) p <= x < p + size_of d -> m' x = os_mem s x) ->
  (forall p d, In (p, d) l -> In (p, size_of d) (bk_live (os_bk s)) -> (exists c, In c (os_chunks s) /\ ck_data c = p) ->
     In (p, size_of d) (bk_live b') /\ exists c, In c cs' /\ ck_data c = p) ->
  oinv l (Os b' (os_base s) (os_len s) used' cs' m').
Proof.
  intros O HU C' F E. pose proof O as [U C K X]. constructor; cbn [os_base os_len os_used os_mem os_bk os_chunks]; [lia|exact C'| |exact X].
  intros p d I. destruct (K p d I) as (K1 & K2 & K3). split; [exact K1|]. split.
  - rewrite <- K2 at 2. apply bytes_at_ext. intros i Hi. apply (F p d); [exact I|]. pose proof (ohd_pos (os_base s) (os_len s) p). lia.
  - destruct K3 as [(K3 & K4 & K5)|[K3 K4]]; [left|right; apply E; assumption]. split; [exact K3|]. split; [lia|]. rewrite <- K5. apply ld8_ext.
    intros x Hx. apply (F p d); [exact I|]. rewrite ohd_in by lia. lia.
Qed.
(** A new block. *)
Lemma oinv_new l s p n : oinv l s -> 0 < n ->
  ((os_base s + 8 <= p /\ p + n <= os_base s + os_used s /\ ld8 (os_mem s) (p - 8) = n) \/
   (In (p, n) (bk_live (os_bk s)) /\ exists c, In c (os_chunks s) /\ ck_data c = p)) ->
  (forall q e, In (q, e) l -> apart (p - ohd (os_base s) (os_len s) p) (n + ohd (os_base s) (os_len s) p) (q - ohd (os_base s) (os_len s) q) (size_of e + ohd (os_base s) (os_len s) q)) ->
  oinv ((p, bytes_at (os_mem s) p n) :: l) s.
Proof.
  intros [U C K X] N P A. constructor; try assumption.
  - intros q d [I|I]; [|apply K; exact I]. injection I as <- <-. rewrite bytes_at_size by lia. split; [exact N|]. split; [reflexivity|exact P].
  - apply gapart_cons; [|exact X]. intros q e I. rewrite bytes_at_size by lia. apply A. exact I.
Qed.
(** The contents of the newest block are rewritten. *)
Lemma oinv_rewrite l s p n v m' : oinv ((p, v) :: l) s -> size_of v = n ->
  (forall x, p - ohd (os_base s) (os_len s) p <= x < p -> m' x = os_mem s x) ->
  (forall q d x, In (q, d) l -> q - ohd (os_base s) (os_len s) q <= x < q + size_of d -> m' x = os_mem s x) ->
  oinv ((p, bytes_at m' p n) :: l) (Os (os_bk s) (os_base s) (os_len s) (os_used s) (os_chunks s) m').
Proof.
  intros O SZ F1 F2. pose proof O as [U C K X]. destruct (K p v (or_introl eq_refl)) as (K1 & K2 & K3). rewrite SZ in *.
  constructor; cbn [os_base os_len os_used os_mem os_bk os_chunks]; try assumption.
  - intros q d [I|I].
    + injection I as <- <-. rewrite bytes_at_size by lia. split; [exact K1|]. split; [reflexivity|].
      destruct K3 as [(K3 & K4 & K5)|K3]; [left|right; exact K3]. split; [exact K3|]. split; [exact K4|]. rewrite <- K5. apply ld8_ext.
      intros x Hx. apply F1. rewrite ohd_in by lia. lia.
    + destruct (K q d (or_intror I)) as (L1 & L2 & L3). split; [exact L1|]. split.
      * rewrite <- L2 at 2. apply bytes_at_ext. intros i Hi. apply (F2 q d); [exact I|]. pose proof (ohd_pos (os_base s) (os_len s) q). lia.
      * destruct L3 as [(L3 & L4 & L5)|L3]; [left|right; exact L3]. split; [exact L3|]. split; [exact L4|]. rewrite <- L5. apply ld8_ext.
        intros x Hx. apply (F2 q d); [exact I|]. rewrite ohd_in by lia. lia.
  - destruct X as [X1 X2]. cbn [gapart]. rewrite bytes_at_size by lia. rewrite SZ in X1. split; assumption.
Qed.

Lemma fresh_ptr l p n q k : rok ((p, n) :: l) -> In (q, k) l -> p <> q.
Proof.
  intros R I E. subst q. pose proof (rok_in _ _ _ R (or_intror I)) as X. pose proof (rok_in _ p n R (or_introl eq_refl)) as Y.
  destruct R as [_ [A _]]. rewrite Forall_forall in A. specialize (A _ I). unfold apart in A. cbn [fst snd] in A. lia.
Qed.
Lemma chain_mono base len b b' cs : chain base len b cs -> bk_live b' = bk_live b -> chain base len b' cs.
Proof. intros [A B C D E] L. constructor; rewrite ?L; assumption. Qed.

Lemma onstack_acquire_spec l s n z al : oinv l s -> 0 < n <= 2 ^ 62 -> align_ok al -> (z = true -> os_len s < n) ->
  exists s' a, onstack_acquire s n z al = Done s' a /\ os_base s' = os_base s /\ os_len s' = os_len s /\
   (forall x, live_at (bk_live (os_bk s)) x -> ~ (os_base s + os_used s <= x < os_base s + os_len s) -> os_mem s' x = os_mem s x) /\
   ((a = AFail /\ oinv l s') \/
    exists q, a = APtr q /\ q mod alignment_for al = 0 /\ (z = true -> forall x, q <= x < q + n -> os_mem s' x = 0) /\
      oinv ((q, bytes_at (os_mem s') q n) :: l) s' /\
      (forall q' d, In (q', d) l -> apart q n q' (size_of d)) /\
      ((os_base s + os_used s + 8 <= q < os_base s + os_used s + 8 + alignment_for al /\ q + n <= os_base s + os_len s) \/
       (In (q, n) (bk_live (os_bk s')) /\ os_len s < os_used s + 8 + alignment_for al + n /\ (forall x, live_at (bk_live (os_bk s)) x -> x < q \/ q + n <= x)))).
Proof.
  intros O N A ZL. pose proof O as [U C K X]. assert (WE := W_eq). unfold onstack_acquire. cbv zeta.
  destruct (alignment_for_cases al A) as (k & Hk & E). pose proof (pow2_bound k Hk) as PB. rewrite E.
  pose proof (rok_in _ _ _ (ch_rok _ _ _ _ C) (ch_buf _ _ _ _ C)) as (B0 & B1 & B2).
  rewrite (wadd_small (os_base s) (os_used s)) by lia. rewrite (wadd_small (_ + _) 8) by lia.
  destruct (align_up_props (os_base s + os_used s + 8) (2 ^ k)) as [M1 M2]; [lia|lia|lia|].
  set (p := aligned_offset (os_base s + os_used s + 8) (2 ^ k)) in *.
  rewrite (wsub_small p (os_base s)) by lia. rewrite (wadd_small (p - os_base s) n) by lia.
  destruct (Z.ltb_spec (os_len s) (p - os_base s + n)) as [Y|Y].
  - (* backing allocator *)
    destruct (bk_acquire_spec (os_bk s) (os_mem s) chunk_size false 0 (ch_rok _ _ _ _ C) ltac:(reflexivity)) as (r1 & b1 & m1 & E1 & F1 & G1). rewrite E1.
    destruct r1 as [c|].
    2:{ eexists _, _. split; [reflexivity|]. cbn [os_base os_len os_mem os_bk]. split; [reflexivity|]. split; [reflexivity|]. split; [intros x L _; apply F1; exact L|].
        left. split; [reflexivity|]. apply (oinv_frame l s b1 (os_used s) (os_chunks s) m1 O); [lia|apply (chain_mono _ _ (os_bk s)); assumption| |].
        - intros q d x I Hx. apply F1. apply (foot_live l s q d); assumption.
        - rewrite G1. auto. }
    destruct G1 as (L1 & R1 & _ & _). rewrite <- L1 in R1.
    destruct (bk_acquire_spec b1 m1 n z (if 0 <? al then 2 ^ k else 0) R1 ltac:(lia)) as (r2 & b2 & m2 & E2 & F2 & G2). rewrite E2.
    assert (F12 : forall x, live_at (bk_live (os_bk s)) x -> m2 x = os_mem s x).
    { intros x L. rewrite F2, F1; [reflexivity|exact L|]. rewrite L1. destruct L as (u & v & I & Hx). exists u, v. split; [right; exact I|exact Hx]. }
    assert (FC : forall q j, In (q, j) (bk_live (os_bk s)) -> c <> q) by (intros q j; rewrite L1 in R1; apply (fresh_ptr _ _ _ _ _ R1)).
    destruct r2 as [d|].
    + destruct G2 as (L2 & R2 & M3 & M4). rewrite <- L2 in R2. rewrite L1 in L2.
      assert (FD : forall q j, In (q, j) ((c, chunk_size) :: bk_live (os_bk s)) -> d <> q) by (intros q j; rewrite L2 in R2; apply (fresh_ptr _ _ _ _ _ R2)).
      set (ck := Ck c (0 <? al) d). eexists _, _. split; [reflexivity|]. cbn [os_base os_len os_mem os_bk].
      split; [reflexivity|]. split; [reflexivity|]. split; [intros x L _; apply F12; exact L|]. right. exists d. split; [reflexivity|].
      assert (ALD : d mod 2 ^ k = 0).
      { destruct (Z.ltb_spec 0 al).
        - rewrite <- E in M3. rewrite alignment_for_idem in M3 by exact A. rewrite <- E. exact M3.
        - destruct A as [->|(j & J & ->)]; [|pose proof (Z.pow_pos_nonneg 2 j); lia]. change (alignment_for 0) with 16 in *. rewrite <- E. exact M3. }
      split; [exact ALD|]. split; [intros Z1 x Hx; apply M4; assumption|].
      assert (CH : chain (os_base s) (os_len s) b2 (ck :: os_chunks s)).
      { constructor.
        - exact R2.
        - rewrite L2. right. right. apply C.
        - assert (ND := ch_nodup _ _ _ _ C). unfold ptrs. cbn [flat_map ck_self ck_data ck app]. fold (ptrs (os_chunks s)).
          apply (Permutation_NoDup (l := d :: c :: os_base s :: ptrs (os_chunks s))).
          { apply Permutation_sym. apply (Permutation_trans (l' := c :: os_base s :: d :: ptrs (os_chunks s))); [apply perm_swap|].
            apply (Permutation_trans (l' := c :: d :: os_base s :: ptrs (os_chunks s))); [apply perm_skip, perm_swap|apply perm_swap]. }
          constructor.
          { intros [H|H]; [exact (FD c chunk_size (or_introl eq_refl) (eq_sym H))|]. destruct (chain_live _ _ _ _ _ C H) as (j & J). exact (FD _ _ (or_intror J) eq_refl). }
          constructor; [|exact ND]. intros H. destruct (chain_live _ _ _ _ _ C H) as (j & J). exact (FC _ _ J eq_refl).
        - intros e [<-|I]; rewrite L2; [right; left; reflexivity|right; right; apply C; exact I].
        - intros e [<-|I]; rewrite L2; [exists n; left; reflexivity|]. destruct (ch_data _ _ _ _ C e I) as (j & J). exists j. right. right. exact J. }
      assert (O1 : oinv l (Os b2 (os_base s) (os_len s) (os_used s) (ck :: os_chunks s) m2)).
      { apply (oinv_frame l s b2 (os_used s) (ck :: os_chunks s) m2 O); [lia|exact CH| |].
        - intros q e x I Hx. apply F12. apply (foot_live l s q e); assumption.
        - intros q e I J (c' & CI & CD). split; [rewrite L2; right; right; exact J|]. exists c'. split; [right; exact CI|exact CD]. }
      assert (IND : In (d, n) (bk_live b2)) by (rewrite L2; left; reflexivity).
      assert (OUT : d + n <= os_base s \/ os_base s + os_len s <= d).
      { assert (BUF : In (os_base s, os_len s) (bk_live b2)) by (rewrite L2; right; right; apply C).
        pose proof (rok_apart _ _ _ _ _ R2 IND BUF) as Q.
        specialize (Q (FD _ _ (or_intror (ch_buf _ _ _ _ C)))). unfold apart in Q. lia. }
      assert (APL : forall x, live_at (bk_live (os_bk s)) x -> x < d \/ d + n <= x).
      { intros x (u & v & I & Hx). assert (J : In (u, v) (bk_live b2)) by (rewrite L2; right; right; exact I).
        pose proof (rok_apart _ _ _ _ _ R2 IND J (FD _ _ (or_intror I))) as Q. unfold apart in Q. lia. }
      assert (APF : forall q e, In (q, e) l -> apart d n (q - ohd (os_base s) (os_len s) q) (size_of e + ohd (os_base s) (os_len s) q)).
      { intros q e I. destruct (K q e I) as (K1 & K2 & K3). pose proof (ohd_pos (os_base s) (os_len s) q) as OP.
        destruct K3 as [(K3 & K4 & K5)|(K3 & K4)].
        - rewrite ohd_in by lia. unfold apart. lia.
        - assert (J : In (q, size_of e) (bk_live b2)) by (rewrite L2; right; right; exact K3).
          pose proof (rok_apart _ _ _ _ _ R2 IND J (FD _ _ (or_intror K3))) as Q.
          rewrite ohd_out by (pose proof (oinv_data l s q e O I K4 K3); lia). unfold apart in *. lia. }
      split.
      { apply (oinv_new l (Os b2 (os_base s) (os_len s) (os_used s) (ck :: os_chunks s) m2) d n O1); cbn [os_base os_len os_used os_mem os_bk os_chunks]; [lia| |].
        - right. split; [exact IND|]. exists ck. split; [left; reflexivity|reflexivity].
        - intros q e I. rewrite (ohd_out _ _ d) by lia. pose proof (APF q e I) as Q. unfold apart in *. lia. }
      split.
      { intros q e I. pose proof (APF q e I) as Q. pose proof (ohd_pos (os_base s) (os_len s) q). unfold apart in *. lia. }
      right. split; [exact IND|]. split; [lia|exact APL].
    + assert (IC : In (c, chunk_size) (bk_live b2)) by (rewrite G2, L1; left; reflexivity).
      destruct (bk_release_spec b2 m2 c chunk_size IC) as (b3 & m3 & E3 & L3 & F3). rewrite E3.
      assert (LV : bk_live b3 = bk_live (os_bk s)).
      { rewrite L3, G2, L1. unfold drop_region. cbn [filter fst]. rewrite Z.eqb_refl. cbn [negb].
        assert (X0 : forall r, (forall q j, In (q, j) r -> c <> q) -> filter (fun e : Z * Z => negb (fst e =? c)) r = r).
        { intros r. induction r as [|[u v] r IH]; [reflexivity|]. intros H. cbn [filter fst]. pose proof (H u v (or_introl eq_refl)) as N0.
          replace (u =? c) with false by lia. cbn [negb]. f_equal. apply IH. intros q j I. apply (H q j). right. exact I. }
        apply X0. exact FC. }
      assert (F123 : forall x, live_at (bk_live (os_bk s)) x -> m3 x = os_mem s x).
      { intros x L. rewrite F3, F12; [reflexivity|exact L|]. rewrite G2, L1. destruct L as (u & v & I & Hx). exists u, v. split; [right; exact I|exact Hx]. }
      eexists _, _. split; [reflexivity|]. cbn [os_base os_len os_mem os_bk]. split; [reflexivity|]. split; [reflexivity|]. split; [intros x L _; apply F123; exact L|].
      left. split; [reflexivity|]. apply (oinv_frame l s b3 (os_used s) (os_chunks s) m3 O); [lia|apply (chain_mono _ _ (os_bk s)); assumption| |].
      * intros q d x I Hx. apply F123. apply (foot_live l s q d); assumption.
      * rewrite LV. auto.
  - (* buffer *)
    rewrite (wsub_small p 8) by lia. unfold os_inside.
    replace ((os_base s <=? p - 8) && (p - 8 + 8 <=? os_base s + os_len s)) with true by lia.
    eexists _, _. split; [reflexivity|]. cbn [os_base os_len os_mem os_bk]. split; [reflexivity|]. split; [reflexivity|].
    split; [intros x _ Hx; apply st8_out; lia|]. right. exists p. split; [reflexivity|]. split; [exact M1|].
    split; [intros Z1; specialize (ZL Z1); lia|].
    assert (FT : forall q d, In (q, d) l -> q + size_of d <= os_base s + os_used s \/ os_base s + os_len s <= q \/ q + size_of d <= os_base s).
    { intros q d I. destruct (K q d I) as (K1 & K2 & [K3|(K3 & K4)]); [lia|]. pose proof (oinv_data l s q d O I K4 K3). lia. }
    assert (FO : forall q d x, In (q, d) l -> q - ohd (os_base s) (os_len s) q <= x < q + size_of d -> x < os_base s + os_used s \/ os_base s + os_len s <= x).
    { intros q d x I Hx. destruct (K q d I) as (K1 & K2 & [K3|(K3 & K4)]); [lia|]. pose proof (oinv_data l s q d O I K4 K3). rewrite ohd_out in Hx by lia. lia. }
    assert (O1 : oinv l (Os (os_bk s) (os_base s) (os_len s) (p - os_base s + n) (os_chunks s) (st8 (os_mem s) (p - 8) n))).
    { apply (oinv_frame l s (os_bk s) (p - os_base s + n) (os_chunks s) _ O); [lia|exact C| |auto].
      intros q d x I Hx. apply st8_out. pose proof (FO q d x I Hx). lia. }
    split.
    { apply (oinv_new l (Os (os_bk s) (os_base s) (os_len s) (p - os_base s + n) (os_chunks s) (st8 (os_mem s) (p - 8) n)) p n O1); cbn [os_base os_len os_used os_mem os_bk os_chunks]; [lia| |].
      - left. split; [lia|]. split; [lia|]. apply ld8_st8. lia.
      - intros q e I. rewrite (ohd_in _ _ p) by lia. pose proof (FT q e I) as Q. destruct (K q e I) as (K1 & _). pose proof (ohd_pos (os_base s) (os_len s) q).
        destruct Q as [Q|[Q|Q]]; [|rewrite ohd_out by lia|]; unfold apart; lia. }
    split; [|left; lia]. intros q e I. pose proof (FT q e I) as Q. destruct (K q e I) as (K1 & _). unfold apart. lia.
Qed.

Lemma remove_chunk_spec p cs c r : remove_chunk p cs = Some (c, r) -> ck_data c = p /\ Permutation cs (c :: r).
Proof.
  revert c r. induction cs as [|x cs IH]; intros c r H; cbn [remove_chunk] in H; [discriminate|].
  destruct (Z.eqb_spec (ck_data x) p) as [E|E]; [injection H as <- <-; split; [exact E|apply Permutation_refl]|].
  destruct (remove_chunk p cs) as [[y r']|]; [|discriminate]. injection H as <- <-. destruct (IH y r' eq_refl) as [H1 H2].
  split; [exact H1|]. apply (Permutation_trans (l' := x :: y :: r')); [apply perm_skip; exact H2|apply perm_swap].
Qed.
Lemma remove_chunk_some p cs c : In c cs -> ck_data c = p -> exists x r, remove_chunk p cs = Some (x, r).
Proof.
  induction cs as [|x cs IH]; intros I D; [destruct I|]. destruct I as [E|I]; cbn [remove_chunk].
  - subst x. rewrite D, Z.eqb_refl. eauto.
  - destruct (ck_data x =? p); [eauto|]. destruct (IH I D) as (y & r & ->). eauto.
Qed.
Lemma retarget_spec p cs c : In c cs -> ck_data c = p -> forall q, exists a x b, cs = a ++ x :: b /\ ck_data x = p /\ retarget p q cs = Some (a ++ Ck (ck_self x) (ck_aligned x) q :: b).
Proof.
  induction cs as [|x cs IH]; intros I D q; [destruct I|]. destruct I as [E|I]; cbn [retarget].
  - subst x. rewrite D, Z.eqb_refl. exists [], c, cs. split; [reflexivity|]. split; [exact D|reflexivity].
  - destruct (Z.eqb_spec (ck_data x) p) as [E|E].
    + exists [], x, cs. split; [reflexivity|]. split; [exact E|reflexivity].
    + destruct (IH I D q) as (a & y & b & H1 & H2 & H3). rewrite H3. exists (x :: a), y, b. split; [rewrite H1; reflexivity|]. split; [exact H2|reflexivity].
Qed.
Lemma ptrs_perm cs cs' : Permutation cs cs' -> Permutation (ptrs cs) (ptrs cs').
Proof. apply Permutation_flat_map. Qed.

(** Taking a chunk out of the chain, and its two regions out of the live ones. *)
Lemma chain_drop base len b cs c r : chain base len b cs -> Permutation cs (c :: r) ->
  forall b', bk_live b' = drop_region (ck_data c) (drop_region (ck_self c) (bk_live b)) -> chain base len b' r.
Proof.
  intros C P b' L. pose proof (ch_nodup _ _ _ _ C) as ND.
  assert (ND2 : NoDup (base :: ck_self c :: ck_data c :: ptrs r)).
  { eapply Permutation_NoDup; [|exact ND]. apply perm_skip. apply (ptrs_perm _ _ P). }
  apply NoDup_cons_iff in ND2. destruct ND2 as [N1 N2]. apply NoDup_cons_iff in N2. destruct N2 as [N2 N3]. apply NoDup_cons_iff in N3. destruct N3 as [N3 N4].
  assert (INR : forall e, In e r -> In e cs) by (intros e I; apply (Permutation_in (l := c :: r)); [apply Permutation_sym; exact P|right; exact I]).
  cbn [In] in N1, N2. constructor; rewrite ?L.
  - apply rok_drop, rok_drop, C.
  - apply drop_in. split; [apply drop_in; split; [apply C|]|]; intuition congruence.
  - constructor; [intuition congruence|exact N4].
  - intros e I. destruct (ptrs_in r e I) as [Q1 Q2]. apply drop_in. split; [apply drop_in; split; [apply C; apply INR; exact I|]|]; intros Q; rewrite Q in Q1; tauto.
  - intros e I. destruct (ptrs_in r e I) as [Q1 Q2]. destruct (ch_data _ _ _ _ C e (INR e I)) as (j & J). exists j.
    apply drop_in. split; [apply drop_in; split; [exact J|]|]; intros Q; rewrite Q in Q2; tauto.
Qed.
Lemma onstack_release_spec l s p d : oinv l s -> In (p, d) l ->
  exists s', onstack_release s p = Done s' ADone /\ os_base s' = os_base s /\ os_len s' = os_len s /\ oinv (forget p l) s'.
Proof.
  intros O I. pose proof O as [U C K X]. destruct (K p d I) as (K1 & K2 & K3). unfold onstack_release, in_stack_mem.
  destruct K3 as [K3|(K3 & K4)].
  - replace ((os_base s <=? p) && (p <=? os_base s + os_len s - 1)) with true by lia. exists s. split; [reflexivity|]. split; [reflexivity|]. split; [reflexivity|].
    apply oinv_forget. exact O.
  - pose proof (oinv_data l s p d O I K4 K3) as OUT. replace ((os_base s <=? p) && (p <=? os_base s + os_len s - 1)) with false by lia.
    destruct K4 as (c0 & CI & CD). destruct (remove_chunk_some p _ c0 CI CD) as (c & r & RC). rewrite RC.
    destruct (remove_chunk_spec _ _ _ _ RC) as [CP P].
    assert (INC : In c (os_chunks s)) by (apply (Permutation_in (l := c :: r)); [apply Permutation_sym; exact P|left; reflexivity]).
    assert (ND2 : NoDup (os_base s :: ck_self c :: ck_data c :: ptrs r)).
    { eapply Permutation_NoDup; [|exact (ch_nodup _ _ _ _ C)]. apply perm_skip. apply (ptrs_perm _ _ P). }
    apply NoDup_cons_iff in ND2. destruct ND2 as [N1 N2]. apply NoDup_cons_iff in N2. destruct N2 as [N2 N3]. cbn [In] in N1, N2.
    destruct (bk_release_spec (os_bk s) (os_mem s) (ck_self c) chunk_size (ch_self _ _ _ _ C c INC)) as (b1 & m1 & E1 & L1 & F1). rewrite E1.
    assert (IP : In (p, size_of d) (bk_live b1)) by (rewrite L1; apply drop_in; split; [exact K3|]; intros Q; apply N2; left; congruence).
    destruct (bk_release_spec b1 m1 p (size_of d) IP) as (b2 & m2 & E2 & L2 & F2). rewrite E2.
    eexists. split; [reflexivity|]. cbn [os_base os_len]. split; [reflexivity|]. split; [reflexivity|].
    rewrite L1 in L2. rewrite <- CP in L2 at 1. pose proof (chain_drop _ _ _ _ _ _ C P b2 L2) as CH.
    apply (oinv_frame (forget p l) s b2 (os_used s) r m2); [apply oinv_forget; exact O|lia|exact CH| |].
    + intros q e x J Hx. apply forget_in in J. destruct J as [J NE].
      assert (LV : live_at (bk_live b1) x).
      { destruct (K q e J) as (Q1 & Q2 & [Q3|(Q3 & Q4)]).
        - exists (os_base s), (os_len s). split; [rewrite L1; apply drop_in; split; [apply C|intuition congruence]|]. rewrite ohd_in in Hx by lia. lia.
        - exists q, (size_of e). rewrite ohd_out in Hx by (pose proof (oinv_data l s q e O J Q4 Q3); lia). split; [|lia].
          rewrite L1. apply drop_in. split; [exact Q3|]. destruct Q4 as (c1 & Q4 & Q5).
          assert (IR : In c1 r).
          { apply (Permutation_in _ P) in Q4. destruct Q4 as [Q4|Q4]; [|exact Q4]. subst c1. congruence. }
          intros Q. apply N2. right. rewrite <- Q, <- Q5. apply ptrs_in. exact IR. }
      rewrite F2 by exact LV. apply F1. destruct LV as (u & v & LV & Hu). exists u, v. split; [|exact Hu]. rewrite L1 in LV. apply drop_in in LV. tauto.
    + intros q e J Q3 (c1 & Q4 & Q5). apply forget_in in J. destruct J as [J NE].
      assert (IR : In c1 r).
      { apply (Permutation_in _ P) in Q4. destruct Q4 as [Q4|Q4]; [|exact Q4]. subst c1. congruence. }
      split; [|exists c1; split; assumption]. rewrite L2. apply drop_in. split; [apply drop_in; split; [exact Q3|]|congruence].
      intros Q. apply N2. right. rewrite <- Q, <- Q5. apply ptrs_in. exact IR.
Qed.
Lemma chain_retarget base len b a x c p q n : chain base len b (a ++ x :: c) -> ck_data x = p ->
  rok ((q, n) :: drop_region p (bk_live b)) -> forall b', bk_live b' = (q, n) :: drop_region p (bk_live b) ->
  chain base len b' (a ++ Ck (ck_self x) (ck_aligned x) q :: c).
Proof.
  intros C D R b' L. pose proof (ch_nodup _ _ _ _ C) as ND.
  assert (PT : forall u v, ptrs (u ++ v) = ptrs u ++ ptrs v) by (intros; apply flat_map_app).
  assert (FR : forall y j, In (y, j) (drop_region p (bk_live b)) -> q <> y) by (intros y j; apply (fresh_ptr _ _ _ _ _ R)).
  assert (P1 : forall y, Permutation (base :: ptrs a ++ ck_self x :: y :: ptrs c) (y :: base :: ptrs a ++ ck_self x :: ptrs c)).
  { intros y. apply Permutation_sym. apply (Permutation_trans (l' := base :: y :: ptrs a ++ ck_self x :: ptrs c)); [apply perm_swap|]. apply perm_skip.
    apply (Permutation_trans (l' := ptrs a ++ y :: ck_self x :: ptrs c)); [apply Permutation_middle|]. apply Permutation_app_head, perm_swap. }
  rewrite PT in ND. cbn [ptrs flat_map app] in ND. fold (ptrs c) in ND. rewrite D in ND.
  pose proof (Permutation_NoDup (P1 p) ND) as ND1. apply NoDup_cons_iff in ND1. destruct ND1 as [N1 N2].
  assert (RG : forall y, In y (base :: ptrs a ++ ck_self x :: ptrs c) -> exists j, In (y, j) (drop_region p (bk_live b))).
  { intros y Y. assert (Y' : In y (base :: ptrs (a ++ x :: c))).
    { rewrite PT. cbn [ptrs flat_map app]. fold (ptrs c). cbn [In] in *. rewrite !in_app_iff in *. cbn [In] in *. tauto. }
    destruct (chain_live _ _ _ _ _ C Y') as (j & J). exists j. apply drop_in. split; [exact J|]. intros Q. subst y. tauto. }
  constructor; rewrite ?L.
  - exact R.
  - right. apply drop_in. split; [apply C|]. intros Q. apply N1. left. exact Q.
  - rewrite PT. cbn [ptrs flat_map app ck_self ck_data]. fold (ptrs c). apply (Permutation_NoDup (Permutation_sym (P1 q))). constructor; [|exact N2].
    intros H. destruct (RG q H) as (j & J). exact (FR _ _ J eq_refl).
  - intros e I. right. assert (S1 : exists e', In e' (a ++ x :: c) /\ ck_self e' = ck_self e).
    { apply in_app_iff in I. destruct I as [I|[I|I]]; [exists e|exists x|exists e]; rewrite in_app_iff; cbn [In]; try tauto. subst e. cbn [ck_self]. tauto. }
    destruct S1 as (e' & I' & <-). apply drop_in. split; [apply C; exact I'|]. intros Q. apply N1. rewrite <- Q.
    apply in_app_iff in I'. cbn [In]. right. apply in_app_iff. destruct I' as [I'|[I'|I']]; [left|right; left; congruence|right; right]; apply ptrs_in; exact I'.
  - intros e I. apply in_app_iff in I. destruct I as [I|[I|I]].
    + destruct (RG (ck_data e)) as (j & J); [right; apply in_app_iff; left; apply ptrs_in; exact I|]. exists j. right. exact J.
    + subst e. cbn [ck_data]. exists n. left. reflexivity.
    + destruct (RG (ck_data e)) as (j & J); [right; apply in_app_iff; right; right; apply ptrs_in; exact I|]. exists j. right. exact J.
Qed.

Lemma onstack_free_spec base len cs : forall b m, chain base len b cs -> exists b' m', free_chunks b m cs = Some (b', m') /\ chain base len b' [].
Proof.
  induction cs as [|c cs IH]; intros b m C; cbn [free_chunks]; [exists b, m; split; [reflexivity|exact C]|].
  destruct (ch_data _ _ _ _ C c (or_introl eq_refl)) as (n & D).
  destruct (bk_release_spec b m (ck_data c) n D) as (b1 & m1 & E1 & L1 & _). rewrite E1.
  assert (ND := ch_nodup _ _ _ _ C). cbn [ptrs flat_map app] in ND. fold (ptrs cs) in ND. apply NoDup_cons_iff in ND. destruct ND as [_ ND].
  apply NoDup_cons_iff in ND. destruct ND as [N2 _]. cbn [In] in N2.
  assert (D2 : In (ck_self c, chunk_size) (bk_live b1)).
  { rewrite L1. apply drop_in. split; [apply C; left; reflexivity|]. intros Q. apply N2. left. congruence. }
  destruct (bk_release_spec b1 m1 (ck_self c) chunk_size D2) as (b2 & m2 & E2 & L2 & _). rewrite E2. apply IH.
  apply (chain_drop _ _ _ _ c cs C (Permutation_refl _)). rewrite L2, L1. unfold drop_region.
  clear. induction (bk_live b) as [|r l IH]; [reflexivity|]. cbn [filter]. destruct (negb (fst r =? ck_data c)) eqn:A, (negb (fst r =? ck_self c)) eqn:B; cbn [filter]; rewrite ?A, ?B; first [exact IH | apply f_equal; exact IH].
Qed.

Lemma onstack_resize_spec l s p d n al : oinv l s -> In (p, d) l -> 0 < n <= 2 ^ 62 -> align_ok al ->
  (size_of d <= n \/ ~ (os_base s <= p < os_base s + os_len s) \/ os_used s + 8 + Z.max 16 al + size_of d <= os_len s) ->
  exists s' a, onstack_resize s p n al = Done s' a /\ os_base s' = os_base s /\ os_len s' = os_len s /\
   ((a = AFail /\ oinv l s') \/
    exists q, a = APtr q /\ q mod alignment_for al = 0 /\ oinv ((q, bytes_at (os_mem s') q n) :: forget p l) s' /\
      (forall q' e, In (q', e) (forget p l) -> apart q n q' (size_of e)) /\
      (forall i, 0 <= i < Z.min n (size_of d) -> os_mem s' (q + i) = os_mem s (p + i))).
Proof.
  intros O I N A AL. pose proof O as [U C K X]. destruct (K p d I) as (K1 & K2 & K3). assert (WE := W_eq).
  pose proof (rok_in _ _ _ (ch_rok _ _ _ _ C) (ch_buf _ _ _ _ C)) as (B0 & B1 & B2).
  unfold onstack_resize, in_stack_mem. destruct K3 as [(K3 & K4 & K5)|(K3 & K4)].
  - (* in the buffer *)
    replace (negb ((os_base s <=? p) && (p <=? os_base s + os_len s - 1))) with false by lia.
    rewrite (wsub_small p 8) by lia. rewrite K5. cbv zeta.
    destruct (onstack_acquire_spec (forget p l) s n false al (oinv_forget l s p O) N A ltac:(discriminate)) as (s1 & a & E & EB & EL & KEEP & R). rewrite E.
    assert (OLD : forall x, p <= x < p + size_of d -> os_mem s1 x = os_mem s x).
    { intros x Hx. apply KEEP; [|lia]. exists (os_base s), (os_len s). split; [apply C|lia]. }
    destruct R as [[-> R]|(q & -> & M1 & _ & R & AP & WH)].
    + exists s1, AFail. split; [reflexivity|]. split; [exact EB|]. split; [exact EL|]. left. split; [reflexivity|].
      (* failure: the old block is still held *)
      assert (X1 : oinv l s1).
      { destruct (onstack_acquire_spec l s n false al O N A ltac:(discriminate)) as (s2 & a2 & E2 & _ & _ & _ & R2). rewrite E in E2. injection E2 as <- <-.
        destruct R2 as [[_ R2]|(q & Q & _)]; [exact R2|discriminate]. }
      exact X1.
    + assert (FIT : os_inside s1 q (size_of d) || existsb (fun r => (fst r <=? q) && (q + size_of d <=? fst r + snd r)) (bk_live (os_bk s1)) = true).
      { destruct (alignment_for_cases al A) as (k & Hk & EK). pose proof (pow2_bound k Hk). unfold alignment_for in WH, EK.
        destruct WH as [WH|(WH1 & WH2 & _)].
        - unfold os_inside. rewrite EB, EL. destruct (Z.ltb_spec al 16); lia.
        - assert (size_of d <= n) by (destruct (Z.ltb_spec al 16); lia).
          apply orb_true_iff. right. apply existsb_exists. exists (q, n). split; [exact WH1|]. cbn [fst snd]. lia. }
      rewrite FIT. eexists _, _. split; [reflexivity|]. cbn [os_base os_len os_mem]. split; [exact EB|]. split; [exact EL|]. right. exists q. split; [reflexivity|]. split; [exact M1|].
      assert (SPARE : forall q' e x, In (q', e) (forget p l) -> q' - ohd (os_base s1) (os_len s1) q' <= x < q' + size_of e -> mcopy (os_mem s1) q p (size_of d) x = os_mem s1 x).
      { intros q' e x J Hx. apply mcopy_out. pose proof J as J'. apply forget_in in J'. destruct J' as [J' NE].
        rewrite EB, EL in Hx. destruct WH as [WH|(WH1 & WH2 & WH3)].
        - destruct (K q' e J') as (Q1 & Q2 & [Q3|(Q3 & Q4)]); [lia|]. pose proof (oinv_data l s q' e O J' Q4 Q3). rewrite ohd_out in Hx by lia.
          assert (q + size_of d <= os_base s + os_len s); [|lia].
          unfold alignment_for in WH. destruct (Z.ltb_spec al 16); lia.
        - pose proof (WH3 x (foot_live l s q' e x O J' Hx)). assert (size_of d <= n); [|lia].
          destruct (alignment_for_cases al A) as (k & Hk & EK). pose proof (pow2_bound k Hk). unfold alignment_for in WH2, EK. destruct (Z.ltb_spec al 16); lia. }
      split.
      * apply (oinv_rewrite (forget p l) s1 q n (bytes_at (os_mem s1) q n)); [exact R|apply bytes_at_size; lia| |exact SPARE].
        intros x Hx. apply mcopy_out. lia.
      * split; [exact AP|]. intros i Hi. rewrite mcopy_in by lia. replace (p + (q + i - q)) with (p + i) by lia. apply OLD. lia.
  - (* in the backing allocator *)
    pose proof (oinv_data l s p d O I K4 K3) as OUT. replace (negb ((os_base s <=? p) && (p <=? os_base s + os_len s - 1))) with true by lia.
    destruct K4 as (c0 & CI & CD). destruct (retarget_spec p _ c0 CI CD p) as (a0 & x0 & b0 & _ & _ & RT0). rewrite RT0.
    destruct (bk_resize_spec (os_bk s) (os_mem s) p (size_of d) n al (ch_rok _ _ _ _ C) ltac:(lia) K3) as (r & b1 & m1 & E1 & G1). rewrite E1.
    destruct r as [q|].
    + destruct G1 as (L1 & R1 & M1 & F1 & F2). destruct (retarget_spec p _ c0 CI CD q) as (u & x & v & SP & XD & RT). rewrite RT.
      eexists _, _. split; [reflexivity|]. cbn [os_base os_len os_mem]. split; [reflexivity|]. split; [reflexivity|]. right. exists q. split; [reflexivity|]. split; [exact M1|].
      rewrite SP in C. pose proof (chain_retarget _ _ _ _ _ _ _ _ _ C XD R1 b1 L1) as CH.
      assert (NB : os_base s <> p) by lia.
      assert (IB : In (os_base s, os_len s) (drop_region p (bk_live (os_bk s)))) by (apply drop_in; split; [apply C|exact NB]).
      assert (FQ : forall y j, In (y, j) (drop_region p (bk_live (os_bk s))) -> apart q n y j).
      { intros y j J. destruct R1 as [_ [R1 _]]. rewrite Forall_forall in R1. exact (R1 _ J). }
      pose proof (FQ _ _ IB) as QB. unfold apart in QB.
      assert (KP : forall q' e, In (q', e) (forget p l) -> (os_base s + 8 <= q' /\ q' + size_of e <= os_base s + os_used s) \/
                  (In (q', size_of e) (drop_region p (bk_live (os_bk s))) /\ (q' + size_of e <= os_base s \/ os_base s + os_len s <= q'))).
      { intros q' e J. apply forget_in in J. destruct J as [J NE]. destruct (K q' e J) as (Q1 & Q2 & [Q3|(Q3 & Q4)]); [left; lia|right].
        split; [apply drop_in; split; assumption|]. exact (oinv_data l s q' e O J Q4 Q3). }
      assert (O1 : oinv (forget p l) (Os b1 (os_base s) (os_len s) (os_used s) (u ++ Ck (ck_self x) (ck_aligned x) q :: v) m1)).
      { apply (oinv_frame (forget p l) s b1 (os_used s) _ m1); [apply oinv_forget; exact O|lia|exact CH| |].
        - intros q' e y J Hy. apply F1. destruct (KP q' e J) as [Q|(Q & Q')].
          + exists (os_base s), (os_len s). split; [exact IB|]. pose proof (ohd_pos (os_base s) (os_len s) q'). lia.
          + exists q', (size_of e). split; [exact Q|]. rewrite ohd_out in Hy; [lia|]. apply forget_in in J. destruct J as [J _]. destruct (K q' e J). lia.
        - intros q' e J Q3 (c1 & Q4 & Q5). pose proof J as J'. apply forget_in in J'. destruct J' as [J' NE]. split; [rewrite L1; right; apply drop_in; split; assumption|].
          exists c1. split; [|exact Q5]. rewrite SP in Q4. apply in_app_iff in Q4. apply in_app_iff. cbn [In] in *. destruct Q4 as [Q4|[Q4|Q4]]; [tauto| |tauto]. congruence. }
      split.
      * apply (oinv_new _ _ q n O1); cbn [os_base os_len os_used os_mem os_bk os_chunks]; [lia| |].
        { right. split; [rewrite L1; left; reflexivity|]. eexists. split; [apply in_app_iff; right; left; reflexivity|reflexivity]. }
        { intros q' e J. rewrite (ohd_out _ _ q) by lia. destruct (KP q' e J) as [Q|(Q & Q')].
          - assert (0 < size_of e) by (apply forget_in in J; destruct J as [J _]; destruct (K q' e J); assumption). rewrite ohd_in by lia. unfold apart. lia.
          - pose proof (FQ _ _ Q) as Q2. rewrite ohd_out; [unfold apart in *; lia|]. apply forget_in in J. destruct J as [J _]. destruct (K q' e J). lia. }
      * split; [|intros i Hi; apply F2; lia]. intros q' e J. destruct (KP q' e J) as [Q|(Q & Q')]; [unfold apart; lia|exact (FQ _ _ Q)].
    + destruct G1 as (L1 & F1). eexists _, _. split; [reflexivity|]. cbn [os_base os_len os_mem]. split; [reflexivity|]. split; [reflexivity|]. left. split; [reflexivity|].
      apply (oinv_frame l s b1 (os_used s) (os_chunks s) m1 O); [lia|apply (chain_mono _ _ (os_bk s)); assumption| |].
      * intros q e x J Hx. apply F1. apply (foot_live l s q e); assumption.
      * rewrite L1. auto.
Qed.

Lemma onstack_step_ok l s o : oinv l s -> legal l o -> onstack_allow s l o ->
  exists s' a, onstack_step s o = Done s' a /\ fair (drops_all s) l o a (os_mem s') /\ oinv (updated (drops_all s) l o a (os_mem s')) s'.
Proof.
  intros O. pose proof O as [U C K X]. destruct o as [n z al|p n al|p al|p off v| |k]; cbn [legal onstack_allow onstack_step].
  - intros [N A] [NB ZL]. destruct (onstack_acquire_spec l s n z al O ltac:(lia) A ZL) as (s' & a & E & _ & _ & _ & R).
    exists s', a. split; [exact E|]. destruct R as [[-> R]|(q & -> & M1 & M2 & R & AP & _)]; [split; [exact I|exact R]|].
    split; [|exact R]. split; [apply aligned_to_intro; assumption|]. split; [exact AP|]. intros Z1. apply bytes_at_Forall. intros i Hi. apply M2; [exact Z1|lia].
  - intros (P & N & A) [NB AL]. destruct (in_map_fst _ _ P) as (d & D).
    destruct (onstack_resize_spec l s p d n al O D ltac:(lia) A (AL d D)) as (s' & a & E & _ & _ & R).
    exists s', a. split; [exact E|]. destruct R as [[-> R]|(q & -> & M1 & R & AP & CP)]; [split; [exact I|exact R]|].
    split; [|exact R]. split; [apply aligned_to_intro; assumption|]. split; [exact AP|]. intros d' D'. rewrite (oinv_ptr l s p d' d O D' D).
    destruct (K p d D) as (K1 & K2 & _). rewrite <- K2 at 2. rewrite bytes_at_firstn by lia. apply bytes_at_ext. exact CP.
  - intros P _. destruct (in_map_fst _ _ P) as (d & D). destruct (onstack_release_spec l s p d O D) as (s' & E & _ & _ & R).
    exists s', ADone. split; [exact E|]. split; [exact I|exact R].
  - intros [(d & D & OF) V] _. destruct (K p d D) as (K1 & K2 & K3). eexists _, _. split; [reflexivity|]. split; [exact I|]. cbn [updated os_mem].
    constructor; cbn [os_base os_len os_used os_mem os_bk os_chunks]; try assumption; [|apply gapart_scribble; exact X].
    intros q f Q. apply scribble_in in Q. destruct Q as (e & Q & SZ & N1 & N2). destruct (K q e Q) as (L1 & L2 & L3). rewrite SZ. split; [exact L1|].
    assert (AP : (p, d) = (q, e) \/ apart (p - ohd (os_base s) (os_len s) p) (size_of d + ohd (os_base s) (os_len s) p) (q - ohd (os_base s) (os_len s) q) (size_of e + ohd (os_base s) (os_len s) q)) by (apply (gapart_in _ l X); assumption).
    pose proof (ohd_pos (os_base s) (os_len s) p). pose proof (ohd_pos (os_base s) (os_len s) q).
    split.
    + destruct (Z.eq_dec q p) as [->|NE].
      * rewrite (N2 eq_refl). rewrite (oinv_ptr l s p e d O Q D). apply bytes_at_put; assumption.
      * rewrite (N1 NE). rewrite <- L2 at 2. apply bytes_at_ext. intros i Hi. apply st1_out. destruct AP as [AP|AP]; [congruence|]. unfold apart in AP. lia.
    + destruct L3 as [(L3 & L4 & L5)|L3]; [left|right; exact L3]. split; [exact L3|]. split; [exact L4|]. rewrite <- L5. apply ld8_ext. intros x Hx. apply st1_out.
      rewrite (ohd_in _ _ q) in AP by lia. destruct AP as [AP|AP]; [injection AP as <- <-; lia|]. unfold apart in AP. lia.
  - intros _ [].
  - intros _ _. unfold onstack_free. destruct (onstack_free_spec _ _ _ (os_bk s) (os_mem s) C) as (b & m & E & C'). rewrite E.
    eexists _, _. split; [reflexivity|]. split; [exact I|]. cbn [updated os_mem].
    replace (filter (fun b0 : Z * list Z => drops_all s k (fst b0) (size_of (snd b0))) l) with (@nil (Z * list Z)) by (clear; induction l; [reflexivity|exact IHl]).
    constructor; cbn [os_base os_len os_used os_mem os_bk os_chunks]; [lia|exact C'|intros p d []|exact I].
Qed.
Lemma onstack_honest ops : forall l s, oinv l s -> honest onstack_step os_mem onstack_owns drops_all onstack_allow l s ops.
Proof.
  induction ops as [|o ops IH]; intros l s O; [exact I|]. cbn [honest]. intros L A.
  destruct (onstack_step_ok l s o O L A) as (s' & a & ST & F & O'). exists s', a. split; [exact ST|]. split; [exact F|]. cbv zeta.
  split; [apply oinv_true; exact O'|]. apply IH. exact O'.
Qed.
