(** Facts about memory, alignment and the ledger shared by the allocator proofs. *)
From Coq Require Import ZArith Bool List Lia ZifyBool.
From Verif Require Import Word AlcSpec AlcMem.
Import ListNotations.
Open Scope Z_scope.

Lemma W_eq : W = 18446744073709551616. Proof. reflexivity. Qed.

(** ** Loads and stores *)
Lemma ldn_ext n : forall m m' a, (forall x, a <= x < a + Z.of_nat n -> m x = m' x) -> ldn n m a = ldn n m' a.
Proof.
  induction n as [|n IH]; intros m m' a H; [reflexivity|]. cbn [ldn]. rewrite (H a) by lia. f_equal. f_equal. apply IH. intros x X. apply H. lia.
Qed.
Lemma ld8_ext m m' a : (forall x, a <= x < a + 8 -> m x = m' x) -> ld8 m a = ld8 m' a.
Proof. intros H. apply (ldn_ext 8). exact H. Qed.
Lemma ldn_digits n : forall m a v, 0 <= v -> (forall i, 0 <= i < Z.of_nat n -> m (a + i) = v / 256 ^ i mod 256) -> ldn n m a = v mod 256 ^ Z.of_nat n.
Proof.
  induction n as [|n IH]; intros m a v V H; cbn [ldn]; [rewrite Z.mod_1_r; reflexivity|].
  rewrite (IH m (a + 1) (v / 256)).
  - pose proof (H 0 ltac:(lia)) as H0. rewrite Z.add_0_r, Z.pow_0_r, Z.div_1_r in H0. rewrite H0.
    replace (Z.of_nat (S n)) with (1 + Z.of_nat n) by lia. rewrite Z.pow_add_r, Z.pow_1_r by lia.
    rewrite Z.rem_mul_r by lia. reflexivity.
  - apply Z.div_pos; lia.
  - intros i Hi. replace (a + 1 + i) with (a + (1 + i)) by lia. rewrite H by lia.
    rewrite Z.pow_add_r, Z.pow_1_r, Z.div_div by lia. reflexivity.
Qed.
Lemma ld8_st8 m a v : 0 <= v < W -> ld8 (st8 m a v) a = v.
Proof.
  intros V. unfold ld8. rewrite (ldn_digits 8 _ a v).
  - apply Z.mod_small. change (256 ^ Z.of_nat 8) with W. lia.
  - lia.
  - intros i Hi. unfold st8. replace ((a <=? a + i) && (a + i <? a + 8)) with true by lia. f_equal. f_equal. f_equal. lia.
Qed.
Lemma st8_out m a v x : x < a \/ a + 8 <= x -> st8 m a v x = m x.
Proof. intros H. unfold st8. replace ((a <=? x) && (x <? a + 8)) with false by lia. reflexivity. Qed.
Lemma mclear_out m a n x : x < a \/ a + n <= x -> mclear m a n x = m x.
Proof. intros H. unfold mclear. replace ((a <=? x) && (x <? a + n)) with false by lia. reflexivity. Qed.
Lemma mclear_in m a n x : a <= x < a + n -> mclear m a n x = 0.
Proof. intros H. unfold mclear. replace ((a <=? x) && (x <? a + n)) with true by lia. reflexivity. Qed.
Lemma mcopy_out m d s n x : x < d \/ d + n <= x -> mcopy m d s n x = m x.
Proof. intros H. unfold mcopy. replace ((d <=? x) && (x <? d + n)) with false by lia. reflexivity. Qed.
Lemma mcopy_in m d s n x : d <= x < d + n -> mcopy m d s n x = m (s + (x - d)).
Proof. intros H. unfold mcopy. replace ((d <=? x) && (x <? d + n)) with true by lia. reflexivity. Qed.
Lemma st1_out m a v x : x <> a -> st1 m a v x = m x.
Proof. intros H. unfold st1. replace (x =? a) with false by lia. reflexivity. Qed.
Lemma ldn_pos n : forall m a, (forall x, 0 <= m x) -> 0 <= ldn n m a.
Proof. induction n as [|n IH]; intros m a H; cbn [ldn]; [lia|]. pose proof (H a). pose proof (IH m (a + 1) H). lia. Qed.

(** ** Byte ranges *)
Lemma bytes_at_len m a n : length (bytes_at m a n) = Z.to_nat n.
Proof. unfold bytes_at. rewrite map_length, seq_length. reflexivity. Qed.
Lemma bytes_at_size m a n : 0 <= n -> size_of (bytes_at m a n) = n.
Proof. intros H. unfold size_of. rewrite bytes_at_len. lia. Qed.
Lemma bytes_at_ext m m' a b n : (forall i, 0 <= i < n -> m (a + i) = m' (b + i)) -> bytes_at m a n = bytes_at m' b n.
Proof.
  intros H. unfold bytes_at. apply map_ext_in. intros i Hi. apply in_seq in Hi. apply H. lia.
Qed.
Lemma bytes_at_firstn m a n k : 0 <= n -> firstn (Z.to_nat k) (bytes_at m a n) = bytes_at m a (Z.min k n).
Proof.
  intros H. unfold bytes_at. rewrite firstn_map. f_equal. destruct (Z.leb_spec k n).
  - rewrite Z.min_l by lia. replace (Z.to_nat n) with (Z.to_nat k + (Z.to_nat n - Z.to_nat k))%nat by lia. rewrite seq_app.
    rewrite firstn_app. rewrite seq_length, Nat.sub_diag. cbn [firstn]. rewrite app_nil_r.
    rewrite firstn_all2; [reflexivity|]. rewrite seq_length. lia.
  - rewrite Z.min_r by lia. apply firstn_all2. rewrite seq_length. lia.
Qed.
Lemma bytes_at_Forall m a n (P : Z -> Prop) : (forall i, 0 <= i < n -> P (m (a + i))) -> Forall P (bytes_at m a n).
Proof. intros H. unfold bytes_at. apply Forall_forall. intros v V. apply in_map_iff in V. destruct V as (i & <- & Hi). apply in_seq in Hi. apply H. lia. Qed.
Lemma bytes_at_split m a n d : bytes_at m a n = d -> forall i, 0 <= i < n -> m (a + i) = nth (Z.to_nat i) d 0.
Proof.
  intros <- i Hi. unfold bytes_at. rewrite (nth_indep _ 0 (m (a + Z.of_nat 0))) by (rewrite map_length, seq_length; lia).
  rewrite (map_nth (fun i => m (a + Z.of_nat i))). rewrite seq_nth by lia. f_equal. lia.
Qed.
Lemma put_length d : forall i v, length (put d i v) = length d.
Proof. induction d as [|a d IH]; intros [|i] v; cbn [put length]; try reflexivity. f_equal. apply IH. Qed.
Lemma put_nth d : forall i v j, (i < length d)%nat -> nth j (put d i v) 0 = if (j =? i)%nat then v else nth j d 0.
Proof.
  induction d as [|a d IH]; intros [|i] v j H; cbn [length] in H; try lia; destruct j as [|j]; cbn [put nth Nat.eqb]; try reflexivity.
  apply IH. lia.
Qed.
Lemma bytes_at_put m a d off v : 0 <= off < size_of d -> bytes_at m a (size_of d) = d ->
  bytes_at (st1 m (a + off) v) a (size_of d) = put d (Z.to_nat off) v.
Proof.
  intros H E. apply (nth_ext _ _ 0 0).
  - rewrite bytes_at_len, put_length. unfold size_of. lia.
  - intros n Hn. rewrite bytes_at_len in Hn. unfold size_of in *. rewrite put_nth by lia.
    pose proof (bytes_at_split _ _ _ _ (eq_refl (bytes_at (st1 m (a + off) v) a (Z.of_nat (length d)))) (Z.of_nat n) ltac:(lia)) as Q.
    rewrite Nat2Z.id in Q. rewrite <- Q. unfold st1.
    pose proof (bytes_at_split _ _ _ _ E (Z.of_nat n) ltac:(lia)) as P. rewrite Nat2Z.id in P.
    destruct (n =? Z.to_nat off)%nat eqn:X.
    + apply Nat.eqb_eq in X. replace (a + Z.of_nat n =? a + off) with true by lia. reflexivity.
    + apply Nat.eqb_neq in X. replace (a + Z.of_nat n =? a + off) with false by lia. exact P.
Qed.

(** ** Alignment *)
Lemma align_up_props off al : 0 <= off -> 0 < al -> off + al <= W ->
  aligned_offset off al mod al = 0 /\ off <= aligned_offset off al < off + al.
Proof.
  intros O A H. unfold aligned_offset, wmul, wsub, wadd, w64.
  assert (E : ((off + al) mod W - 1) mod W = off + al - 1).
  { destruct (Z.eq_dec (off + al) W) as [E|E].
    - rewrite E. rewrite W_eq. reflexivity.
    - rewrite (Z.mod_small (off + al)) by lia. apply Z.mod_small. lia. }
  rewrite E. pose proof (Z.div_mod (off + al - 1) al ltac:(lia)). pose proof (Z.mod_pos_bound (off + al - 1) al ltac:(lia)).
  assert (B : off <= al * ((off + al - 1) / al) < off + al) by lia.
  rewrite (Z.mod_small (al * _) W) by lia. split; [|exact B]. rewrite Z.mul_comm. apply Z.mod_mul. lia.
Qed.
Lemma alignment_for_cases al : align_ok al -> exists k, 4 <= k <= 28 /\ alignment_for al = 2 ^ k.
Proof.
  unfold align_ok, alignment_for. intros [->|(k & K & ->)]; [exists 4; split; [lia|reflexivity]|].
  destruct (Z.ltb_spec (2 ^ k) 16) as [X|X]; [exists 4; split; [lia|reflexivity]|].
  exists k. split; [|reflexivity]. split; [|lia]. destruct (Z.le_gt_cases 4 k); [assumption|].
  assert (2 ^ k < 2 ^ 4) by (apply Z.pow_lt_mono_r; lia). lia.
Qed.
Lemma alignment_for_idem al : align_ok al -> alignment_for (alignment_for al) = alignment_for al.
Proof. intros H. unfold alignment_for. destruct (al <? 16) eqn:E; [reflexivity|]. rewrite E. reflexivity. Qed.
Lemma pow2_bound k : 4 <= k <= 28 -> 16 <= 2 ^ k <= 2 ^ 28.
Proof. intros H. split; [change 16 with (2 ^ 4)|]; apply Z.pow_le_mono_r; lia. Qed.
Lemma mod_pow2_le p j k : 0 <= j <= k -> p mod 2 ^ k = 0 -> p mod 2 ^ j = 0.
Proof.
  intros H E. apply Z.mod_divide in E; [|pose proof (Z.pow_pos_nonneg 2 k); lia]. apply Z.mod_divide; [pose proof (Z.pow_pos_nonneg 2 j); lia|].
  apply Z.divide_trans with (2 ^ k); [|exact E]. exists (2 ^ (k - j)). rewrite <- Z.pow_add_r by lia. f_equal. lia.
Qed.
Lemma aligned_to_intro al p : align_ok al -> p mod alignment_for al = 0 -> aligned_to al p.
Proof.
  intros A H. destruct (alignment_for_cases al A) as (k & K & E). rewrite E in H. split.
  - change 16 with (2 ^ 4). apply (mod_pow2_le p 4 k); [lia|exact H].
  - intros NZ. destruct A as [->|(j & J & ->)]; [congruence|].
    apply (mod_pow2_le p j k); [|exact H]. split; [lia|]. unfold alignment_for in E.
    destruct (Z.ltb_spec (2 ^ j) 16) as [X|X].
    + assert (2 ^ j < 2 ^ 4) by lia. apply Z.pow_lt_mono_r_iff in H0; lia.
    + apply Z.pow_inj_r in E; lia.
Qed.
Lemma ptr_aligned_mod p al : align_ok al -> 0 <= p -> ptr_is_aligned p (alignment_for al) = (p mod alignment_for al =? 0).
Proof.
  intros A P. destruct (alignment_for_cases al A) as (k & K & E). rewrite E. unfold ptr_is_aligned.
  pose proof (pow2_bound k K). unfold wsub, w64. rewrite Z.mod_small by (rewrite W_eq; lia).
  replace (2 ^ k - 1) with (Z.ones k) by (rewrite Z.ones_equiv; lia). rewrite Z.land_ones by lia. reflexivity.
Qed.

(** ** The ledger *)
Lemma forget_in p l q d : In (q, d) (forget p l) <-> In (q, d) l /\ q <> p.
Proof. unfold forget. rewrite filter_In. cbn [fst]. intuition lia. Qed.
Lemma all_apart_filter f l : all_apart l -> all_apart (filter f l).
Proof.
  induction l as [|[p d] l IH]; cbn [all_apart filter]; [trivial|]. intros [H1 H2]. destruct (f (p, d)); [|auto].
  cbn [all_apart]. split; [|auto]. apply Forall_forall. intros b B. apply filter_In in B. rewrite Forall_forall in H1. apply H1. tauto.
Qed.
Lemma all_apart_cons p d l : (forall q e, In (q, e) l -> apart p (size_of d) q (size_of e)) -> all_apart l -> all_apart ((p, d) :: l).
Proof. intros H1 H2. cbn [all_apart]. split; [|exact H2]. apply Forall_forall. intros [q e] B. apply H1. exact B. Qed.
Lemma all_apart_in l : all_apart l -> forall p d q e, In (p, d) l -> In (q, e) l -> (p, d) = (q, e) \/ apart p (size_of d) q (size_of e).
Proof.
  induction l as [|[r f] l IH]; intros A p d q e P Q; [destruct P|]. destruct A as [A1 A2]. rewrite Forall_forall in A1.
  destruct P as [P|P], Q as [Q|Q].
  - left. congruence.
  - right. injection P as <- <-. exact (A1 _ Q).
  - right. injection Q as <- <-. specialize (A1 _ P). unfold apart in *. cbn [fst snd] in A1. lia.
  - apply IH; assumption.
Qed.
Lemma scribble_in p off v l q d : In (q, d) (scribble p off v l) ->
  exists e, In (q, e) l /\ size_of d = size_of e /\ (q <> p -> d = e) /\ (q = p -> d = put e (Z.to_nat off) v).
Proof.
  unfold scribble. intros H. apply in_map_iff in H. destruct H as ([r e] & E & I). cbn [fst snd] in E. destruct (r =? p) eqn:X.
  - injection E as <- <-. exists e. split; [exact I|]. unfold size_of. rewrite put_length. split; [reflexivity|]. split; [intros; lia|auto].
  - injection E as <- <-. exists e. split; [exact I|]. split; [reflexivity|]. split; [auto|intros; lia].
Qed.
Lemma all_apart_scribble p off v l : all_apart l -> all_apart (scribble p off v l).
Proof.
  induction l as [|[r e] l IH]; [trivial|]. intros [A1 A2]. change (scribble p off v ((r, e) :: l)) with
   ((if r =? p then (r, put e (Z.to_nat off) v) else (r, e)) :: scribble p off v l).
  assert (X : exists e', (if r =? p then (r, put e (Z.to_nat off) v) else (r, e)) = (r, e') /\ size_of e' = size_of e).
  { destruct (r =? p); eexists; (split; [reflexivity|]); [unfold size_of; rewrite put_length|]; reflexivity. }
  destruct X as (e' & -> & SZ). cbn [all_apart]. split; [|apply IH; exact A2].
  apply Forall_forall. intros [q d] Q. apply scribble_in in Q. destruct Q as (f & F & S1 & _). rewrite Forall_forall in A1.
  specialize (A1 _ F). cbn [fst snd] in *. rewrite SZ, S1. exact A1.
Qed.

(** ** Blocks with headers: block [p] of size [n] takes [p - h, p + n). *)
Fixpoint xapart (h : Z) (l : ledger) : Prop :=
  match l with
  | [] => True
  | (p, d) :: r => Forall (fun b => apart (p - h) (size_of d + h) (fst b - h) (size_of (snd b) + h)) r /\ xapart h r
  end.
Lemma xapart_apart h l : 0 <= h -> xapart h l -> all_apart l.
Proof.
  intros Hh. induction l as [|[p d] l IH]; [trivial|]. intros [H1 H2]. cbn [all_apart]. split; [|auto].
  eapply Forall_impl; [|exact H1]. intros [q e]. unfold apart. cbn [fst snd]. lia.
Qed.
Lemma xapart_filter h f l : xapart h l -> xapart h (filter f l).
Proof.
  induction l as [|[p d] l IH]; cbn [xapart filter]; [trivial|]. intros [H1 H2]. destruct (f (p, d)); [|auto].
  cbn [xapart]. split; [|auto]. apply Forall_forall. intros b B. apply filter_In in B. rewrite Forall_forall in H1. apply H1. tauto.
Qed.
Lemma xapart_cons h p d l : (forall q e, In (q, e) l -> apart (p - h) (size_of d + h) (q - h) (size_of e + h)) -> xapart h l -> xapart h ((p, d) :: l).
Proof. intros H1 H2. cbn [xapart]. split; [|exact H2]. apply Forall_forall. intros [q e] B. apply H1. exact B. Qed.
Lemma xapart_in h l : xapart h l -> forall p d q e, In (p, d) l -> In (q, e) l -> (p, d) = (q, e) \/ apart (p - h) (size_of d + h) (q - h) (size_of e + h).
Proof.
  induction l as [|[r f] l IH]; intros A p d q e P Q; [destruct P|]. destruct A as [A1 A2]. rewrite Forall_forall in A1.
  destruct P as [P|P], Q as [Q|Q].
  - left. congruence.
  - right. injection P as <- <-. exact (A1 _ Q).
  - right. injection Q as <- <-. specialize (A1 _ P). unfold apart in *. cbn [fst snd] in A1. lia.
  - apply IH; assumption.
Qed.
Lemma xapart_scribble h p off v l : xapart h l -> xapart h (scribble p off v l).
Proof.
  induction l as [|[r e] l IH]; [trivial|]. intros [A1 A2]. change (scribble p off v ((r, e) :: l)) with
   ((if r =? p then (r, put e (Z.to_nat off) v) else (r, e)) :: scribble p off v l).
  assert (X : exists e', (if r =? p then (r, put e (Z.to_nat off) v) else (r, e)) = (r, e') /\ size_of e' = size_of e).
  { destruct (r =? p); eexists; (split; [reflexivity|]); [unfold size_of; rewrite put_length|]; reflexivity. }
  destruct X as (e' & -> & SZ). cbn [xapart]. split; [|apply IH; exact A2].
  apply Forall_forall. intros [q d] Q. apply scribble_in in Q. destruct Q as (f & F & S1 & _). rewrite Forall_forall in A1.
  specialize (A1 _ F). cbn [fst snd] in *. rewrite SZ, S1. exact A1.
Qed.
Lemma wadd_small a b : 0 <= a + b < W -> wadd a b = a + b.
Proof. intros H. unfold wadd, w64. apply Z.mod_small. exact H. Qed.
Lemma wsub_small a b : 0 <= a - b < W -> wsub a b = a - b.
Proof. intros H. unfold wsub, w64. apply Z.mod_small. exact H. Qed.
Lemma aligned_to_mod al p : aligned_to al p -> align_ok al -> p mod alignment_for al = 0.
Proof.
  intros [H1 H2] A. unfold alignment_for. destruct (Z.ltb_spec al 16); [exact H1|]. apply H2. lia.
Qed.
Lemma in_map_fst (l : ledger) p : In p (map fst l) -> exists d, In (p, d) l.
Proof. intros H. apply in_map_iff in H. destruct H as ([q d] & <- & I). exists d. exact I. Qed.

(** ** Blocks whose header size depends on where they are. *)
Fixpoint gapart (h : Z -> Z) (l : ledger) : Prop :=
  match l with
  | [] => True
  | (p, d) :: r => Forall (fun b => apart (p - h p) (size_of d + h p) (fst b - h (fst b)) (size_of (snd b) + h (fst b))) r /\ gapart h r
  end.
Lemma gapart_apart h l : (forall x, 0 <= h x) -> gapart h l -> all_apart l.
Proof.
  intros Hh. induction l as [|[p d] l IH]; [trivial|]. intros [H1 H2]. cbn [all_apart]. split; [|auto].
  eapply Forall_impl; [|exact H1]. intros [q e]. unfold apart. cbn [fst snd]. pose proof (Hh p). pose proof (Hh q). lia.
Qed.
Lemma gapart_filter h f l : gapart h l -> gapart h (filter f l).
Proof.
  induction l as [|[p d] l IH]; cbn [gapart filter]; [trivial|]. intros [H1 H2]. destruct (f (p, d)); [|auto].
  cbn [gapart]. split; [|auto]. apply Forall_forall. intros b B. apply filter_In in B. rewrite Forall_forall in H1. apply H1. tauto.
Qed.
Lemma gapart_cons h p d l : (forall q e, In (q, e) l -> apart (p - h p) (size_of d + h p) (q - h q) (size_of e + h q)) -> gapart h l -> gapart h ((p, d) :: l).
Proof. intros H1 H2. cbn [gapart]. split; [|exact H2]. apply Forall_forall. intros [q e] B. apply H1. exact B. Qed.
Lemma gapart_in h l : gapart h l -> forall p d q e, In (p, d) l -> In (q, e) l -> (p, d) = (q, e) \/ apart (p - h p) (size_of d + h p) (q - h q) (size_of e + h q).
Proof.
  induction l as [|[r f] l IH]; intros A p d q e P Q; [destruct P|]. destruct A as [A1 A2]. rewrite Forall_forall in A1.
  destruct P as [P|P], Q as [Q|Q].
  - left. congruence.
  - right. injection P as <- <-. exact (A1 _ Q).
  - right. injection Q as <- <-. specialize (A1 _ P). unfold apart in *. cbn [fst snd] in A1. lia.
  - apply IH; assumption.
Qed.
Lemma gapart_scribble h p off v l : gapart h l -> gapart h (scribble p off v l).
Proof.
  induction l as [|[r e] l IH]; [trivial|]. intros [A1 A2]. change (scribble p off v ((r, e) :: l)) with
   ((if r =? p then (r, put e (Z.to_nat off) v) else (r, e)) :: scribble p off v l).
  assert (X : exists e', (if r =? p then (r, put e (Z.to_nat off) v) else (r, e)) = (r, e') /\ size_of e' = size_of e).
  { destruct (r =? p); eexists; (split; [reflexivity|]); [unfold size_of; rewrite put_length|]; reflexivity. }
  destruct X as (e' & -> & SZ). cbn [gapart]. split; [|apply IH; exact A2].
  apply Forall_forall. intros [q d] Q. apply scribble_in in Q. destruct Q as (f & F & S1 & _). rewrite Forall_forall in A1.
  specialize (A1 _ F). cbn [fst snd] in *. rewrite SZ, S1. exact A1.
Qed.
