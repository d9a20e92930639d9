(** The three hash functions as instances of the generic proofs; each published function gives one digest. *)
From Coq Require Import ZArith Bool List Lia ZifyBool.
From Verif Require Import Mach ListAux HashModel HashUse HashSpec HashBits HashBlk Hash256 Hash1 Hash1b Hash5 HashMac.
Import ListNotations.
Open Scope Z_scope.

Definition Rep256 (s : hstate Sha256) (m : list Z) : Prop :=
  Forall byte m /\ rep256 s (fst (feed256 (state256 init256, []) m)) (snd (feed256 (state256 init256, []) m)) ((8 * zlen m) mod 2 ^ 64).
Definition small256 (d : list Z) : Prop := zlen d < 2 ^ 29.
Lemma init_256 s : True -> Rep256 (hinit Sha256 s) [].
Proof. intros _. split; [apply Forall_nil|exact rep256_init]. Qed.
Lemma upd_256 s m d : Rep256 s m -> Forall byte d -> small256 d -> exists s', hupdate Sha256 s d = Ok s' /\ Rep256 s' (m ++ d).
Proof.
  intros (Hm & H) Hd Hl. destruct (update256_ok s _ _ _ d H) as (s' & E & R). exists s'. split; [exact E|].
  split; [apply Forall_app; split; assumption|]. rewrite <- surjective_pairing in R. unfold feed256 in *. rewrite feeds_app.
  rewrite (Z.mod_small (8 * zlen d)) in R by (pose proof (zlen_nonneg d); unfold small256 in Hl; lia).
  rewrite Zplus_mod_idemp_l in R. rewrite zlen_app, Z.mul_add_distr_l. exact R.
Qed.
Lemma fin_256 s m : Rep256 s m -> exists d, hfinal Sha256 s = Ok d /\ zlen d = hsize Sha256 /\ Forall byte d /\ SHA256 m d.
Proof.
  intros (Hm & H). destruct (finish256 m s _ Hm H) as (k & d & Hk & E & L & B & M & D). exists d. split; [exact E|].
  split; [unfold zlen; rewrite L; reflexivity|]. split; [exact B|].
  rewrite (bytes_be_mod (8 * zlen m)) in M, D. eexists. split; [|exact D]. exists k. split; [exact Hk|]. split; [reflexivity|exact M].
Qed.

Definition Rep1 (s : hstate Sha1) (m : list Z) : Prop :=
  Forall byte m /\ rep1 s (fst (feed1 (state1 init1, []) m)) (snd (feed1 (state1 init1, []) m)) (zlen m).
Definition small1 (d : list Z) : Prop := zlen d <= 2 ^ 32 - 64.
Lemma init_1 s : True -> Rep1 (hinit Sha1 s) [].
Proof. intros _. split; [apply Forall_nil|exact rep1_init]. Qed.
Lemma upd_1 s m d : Rep1 s m -> Forall byte d -> small1 d -> exists s', hupdate Sha1 s d = Ok s' /\ Rep1 s' (m ++ d).
Proof.
  intros (Hm & H) Hd Hl. destruct (update1_ok s _ _ _ d H Hl) as (s' & E & R). exists s'. split; [exact E|].
  split; [apply Forall_app; split; assumption|]. rewrite <- surjective_pairing in R. unfold feed1 in *. rewrite feeds_app, zlen_app. exact R.
Qed.
Lemma fin_1 s m : Rep1 s m -> exists d, hfinal Sha1 s = Ok d /\ zlen d = hsize Sha1 /\ Forall byte d /\ SHA1 m d.
Proof.
  intros (Hm & H). destruct (finish1 m s Hm H) as (d & E & L & B & D). exists d. split; [exact E|].
  split; [unfold zlen; rewrite L; reflexivity|]. split; [exact B|exact D].
Qed.

Definition Ready5 (s : hstate Md5) : Prop := length (buffer5 s) = 64%nat.
Definition Rep5 (s : hstate Md5) (m : list Z) : Prop :=
  Forall byte m /\ rep5 s (fst (feed5 (iv5, []) m)) (snd (feed5 (iv5, []) m)) (zlen m).
Lemma init_5 s : Ready5 s -> Rep5 (hinit Md5 s) [].
Proof. intros H. split; [apply Forall_nil|exact (rep5_init s H)]. Qed.
Lemma upd_5 s m d : Rep5 s m -> Forall byte d -> True -> exists s', hupdate Md5 s d = Ok s' /\ Rep5 s' (m ++ d).
Proof.
  intros (Hm & H) Hd _. destruct (update5_ok s _ _ _ d H) as (s' & E & R). exists s'. split; [exact E|].
  split; [apply Forall_app; split; assumption|]. rewrite <- surjective_pairing in R. unfold feed5 in *. rewrite feeds_app, zlen_app. exact R.
Qed.
Lemma fin_5 s m : Rep5 s m -> exists d, hfinal Md5 s = Ok d /\ zlen d = hsize Md5 /\ Forall byte d /\ MD5 m d.
Proof.
  intros (Hm & H). destruct (finish5 m s Hm H) as (d & E & L & B & D). exists d. split; [exact E|].
  split; [unfold zlen; rewrite L; reflexivity|]. split; [exact B|exact D].
Qed.
Lemma ready_5 s m : Rep5 s m -> Ready5 s.
Proof. intros (_ & H). apply H. Qed.

(** Uniqueness. *)
Lemma power_bracket n r r' x : (0 < n) -> 0 <= r -> 0 <= r' -> r ^ n <= x < (r + 1) ^ n -> r' ^ n <= x < (r' + 1) ^ n -> r = r'.
Proof.
  intros Hn Hr Hr' H H'. destruct (Z.lt_trichotomy r r') as [L|[E|L]]; [|exact E|]; exfalso.
  - assert ((r + 1) ^ n <= r' ^ n) by (apply Z.pow_le_mono_l; lia). lia.
  - assert ((r' + 1) ^ n <= r ^ n) by (apply Z.pow_le_mono_l; lia). lia.
Qed.
Lemma cbrt_unique p k k' : cbrt_frac p k -> cbrt_frac p k' -> k = k'.
Proof.
  intros (r & Hr & B & ->) (r' & Hr' & B' & ->). rewrite (power_bracket 3 r r' (p * 2 ^ 96)); [reflexivity|lia|assumption..].
Qed.
Lemma sqrt_unique p k k' : sqrt_frac p k -> sqrt_frac p k' -> k = k'.
Proof.
  intros (r & Hr & B & ->) (r' & Hr' & B' & ->). rewrite (power_bracket 2 r r' (p * 2 ^ 64)); [reflexivity|lia|assumption..].
Qed.
Lemma compress256_unique h m x y : compress256 h m x -> compress256 h m y -> x = y.
Proof.
  intros (K & W & a & b & c & d & e & f & g & k & HK & W0 & W1 & H0 & St & ->) (K' & W' & a' & b' & c' & d' & e' & f' & g' & k' & HK' & W0' & W1' & H0' & St' & ->).
  assert (EW : forall n t, (t < n)%nat -> (t < 64)%nat -> W t = W' t).
  { induction n as [|n IH]; intros t Ht Hb; [lia|]. destruct (Nat.lt_ge_cases t 16) as [L|L]; [rewrite W0, W0' by lia; reflexivity|].
    rewrite W1, W1' by lia. rewrite !(IH (t - _)%nat) by lia. reflexivity. }
  assert (E0 : [a O; b O; c O; d O; e O; f O; g O; k O] = [a' O; b' O; c' O; d' O; e' O; f' O; g' O; k' O]) by congruence.
  injection E0 as e1 e2 e3 e4 e5 e6 e7 e8.
  assert (E : forall t, (t <= 64)%nat -> a t = a' t /\ b t = b' t /\ c t = c' t /\ d t = d' t /\ e t = e' t /\ f t = f' t /\ g t = g' t /\ k t = k' t).
  { induction t as [|t IH]; intros Ht; [repeat match goal with |- _ /\ _ => split end; assumption|].
    destruct (IH ltac:(lia)) as (i1 & i2 & i3 & i4 & i5 & i6 & i7 & i8).
    destruct (St t ltac:(lia)) as (s1 & s2 & s3 & s4 & s5 & s6 & s7 & s8). destruct (St' t ltac:(lia)) as (t1 & t2 & t3 & t4 & t5 & t6 & t7 & t8).
    rewrite s1, s2, s3, s4, s5, s6, s7, s8, t1, t2, t3, t4, t5, t6, t7, t8, i1, i2, i3, i4, i5, i6, i7, i8.
    rewrite (cbrt_unique _ _ _ (HK t ltac:(lia)) (HK' t ltac:(lia))), (EW 64%nat t) by lia.
    repeat match goal with |- _ /\ _ => split end; reflexivity. }
  destruct (E 64%nat ltac:(lia)) as (i1 & i2 & i3 & i4 & i5 & i6 & i7 & i8).
  rewrite e1, e2, e3, e4, e5, e6, e7, e8, i1, i2, i3, i4, i5, i6, i7, i8. reflexivity.
Qed.
Lemma compress1_unique h m x y : compress1 h m x -> compress1 h m y -> x = y.
Proof.
  intros (W & a & b & c & d & e & W0 & W1 & H0 & St & ->) (W' & a' & b' & c' & d' & e' & W0' & W1' & H0' & St' & ->).
  assert (EW : forall n t, (t < n)%nat -> (t < 80)%nat -> W t = W' t).
  { induction n as [|n IH]; intros t Ht Hb; [lia|]. destruct (Nat.lt_ge_cases t 16) as [L|L]; [rewrite W0, W0' by lia; reflexivity|].
    rewrite W1, W1' by lia. rewrite !(IH (t - _)%nat) by lia. reflexivity. }
  assert (E0 : [a O; b O; c O; d O; e O] = [a' O; b' O; c' O; d' O; e' O]) by congruence.
  injection E0 as e1 e2 e3 e4 e5.
  assert (E : forall t, (t <= 80)%nat -> a t = a' t /\ b t = b' t /\ c t = c' t /\ d t = d' t /\ e t = e' t).
  { induction t as [|t IH]; intros Ht; [repeat match goal with |- _ /\ _ => split end; assumption|].
    destruct (IH ltac:(lia)) as (i1 & i2 & i3 & i4 & i5).
    destruct (St t ltac:(lia)) as (s1 & s2 & s3 & s4 & s5). destruct (St' t ltac:(lia)) as (t1 & t2 & t3 & t4 & t5).
    rewrite s1, s2, s3, s4, s5, t1, t2, t3, t4, t5, i1, i2, i3, i4, i5, (EW 80%nat t) by lia.
    repeat match goal with |- _ /\ _ => split end; reflexivity. }
  destruct (E 80%nat ltac:(lia)) as (i1 & i2 & i3 & i4 & i5). rewrite e1, e2, e3, e4, e5, i1, i2, i3, i4, i5. reflexivity.
Qed.
Lemma compress5_unique h m x y : compress5 h m x -> compress5 h m y -> x = y.
Proof.
  intros (a & b & c & d & H0 & St & ->) (a' & b' & c' & d' & H0' & St' & ->).
  assert (E0 : [a O; b O; c O; d O] = [a' O; b' O; c' O; d' O]) by congruence.
  injection E0 as e1 e2 e3 e4.
  assert (E : forall t, (t <= 64)%nat -> a t = a' t /\ b t = b' t /\ c t = c' t /\ d t = d' t).
  { induction t as [|t IH]; intros Ht; [repeat match goal with |- _ /\ _ => split end; assumption|].
    destruct (IH ltac:(lia)) as (i1 & i2 & i3 & i4).
    destruct (St t ltac:(lia)) as (s1 & s2 & s3 & s4). destruct (St' t ltac:(lia)) as (t1 & t2 & t3 & t4).
    rewrite s1, s2, s3, s4, t1, t2, t3, t4, i1, i2, i3, i4.
    repeat match goal with |- _ /\ _ => split end; reflexivity. }
  destruct (E 64%nat ltac:(lia)) as (i1 & i2 & i3 & i4). rewrite e1, e2, e3, e4, i1, i2, i3, i4. reflexivity.
Qed.
Lemma digest256_unique p d d' : digest256 p d -> digest256 p d' -> d = d'.
Proof.
  intros (iv & o & L & Hiv & Ch & ->) (iv' & o' & L' & Hiv' & Ch' & ->).
  assert (E : iv = iv').
  { apply nth_ext with (d := 0) (d' := 0); [congruence|]. intros n Hn. apply (sqrt_unique (nth n primes 0)); [apply Hiv|apply Hiv']; lia. }
  subst iv'. rewrite (chained_unique _ _ _ _ _ compress256_unique Ch Ch'). reflexivity.
Qed.
Lemma SHA256_unique m d d' : SHA256 m d -> SHA256 m d' -> d = d'.
Proof.
  intros (p & P & D) (p' & P' & D'). rewrite (padded_unique _ _ _ _ (bytes_be_length 8) P' P) in D'. exact (digest256_unique p d d' D D').
Qed.
Lemma SHA1_unique m d d' : SHA1 m d -> SHA1 m d' -> d = d'.
Proof.
  intros (p & o & P & C & ->) (p' & o' & P' & C' & ->). rewrite (padded_unique _ _ _ _ (bytes_be_length 8) P' P) in C'.
  rewrite (chained_unique _ _ _ _ _ compress1_unique C C'). reflexivity.
Qed.
Lemma MD5_unique m d d' : MD5 m d -> MD5 m d' -> d = d'.
Proof.
  intros (p & o & P & C & ->) (p' & o' & P' & C' & ->). rewrite (padded_unique _ _ _ _ (bytes_le_length 8) P' P) in C'.
  rewrite (chained_unique _ _ _ _ _ compress5_unique C C'). reflexivity.
Qed.
Lemma HMAC_unique (Hash : list Z -> list Z -> Prop) key text d d' : (forall m x y, Hash m x -> Hash m y -> x = y) ->
  HMAC Hash key text d -> HMAC Hash key text d' -> d = d'.
Proof.
  intros U (k & i & K & I & D) (k' & i' & K' & I' & D').
  assert (k = k') by (destruct (len key <=? 64); [congruence|exact (U _ _ _ K K')]). subst k'.
  rewrite <- (U _ _ _ I I') in D'. exact (U _ _ _ D D').
Qed.
Lemma pbkdf2_block_unique (PRF : list Z -> list Z -> Prop) salt c i T T' : (forall m x y, PRF m x -> PRF m y -> x = y) ->
  pbkdf2_block PRF salt c i T -> pbkdf2_block PRF salt c i T' -> T = T'.
Proof.
  intros U (V & V1 & VS & VL & VX) (V' & V1' & VS' & VL' & VX').
  assert (E1 : V 1%nat = V' 1%nat) by exact (U _ _ _ V1 V1').
  assert (E : forall j, (j < c)%nat -> V (S j) = V' (S j)).
  { induction j as [|j IH]; intros Hj; [exact E1|]. pose proof (VS (S j) ltac:(lia)) as A. pose proof (VS' (S j) ltac:(lia)) as B. rewrite <- IH in B by lia. exact (U _ _ _ A B). }
  apply nth_ext with (d := 0) (d' := 0); [congruence|]. intros n _. rewrite VX, VX'. f_equal. apply map_ext_in. intros j Hj. apply in_seq in Hj.
  destruct j as [|j]; [lia|]. rewrite E by lia. reflexivity.
Qed.
Lemma PBKDF2_unique (Hash : list Z -> list Z -> Prop) pw salt c n d d' : (forall m x y, Hash m x -> Hash m y -> x = y) -> PBKDF2 Hash pw salt c n d -> PBKDF2 Hash pw salt c n d' -> d = d'.
Proof.
  intros U (T & TB & TL & (k & ->)) (T' & TB' & TL' & (k' & ->)).
  assert (E : forall i, T i = T' i) by (intros i; apply (pbkdf2_block_unique (HMAC Hash pw) salt c (Z.of_nat i + 1)); [intros m x y; apply HMAC_unique; exact U|apply TB|apply TB']).
  rewrite (flat_map_ext T' T) in * by (intros; symmetry; apply E).
  assert (G : forall a b, (a <= b)%nat -> exists r, flat_map T (seq 0 b) = flat_map T (seq 0 a) ++ r).
  { intros a b Hab. exists (flat_map T (seq a (b - a))). rewrite <- flat_map_app. f_equal. replace b with (a + (b - a))%nat at 1 by lia. apply seq_app. }
  unfold len in *. rewrite firstn_length in TL, TL'.
  destruct (Nat.le_ge_cases k k') as [L|L]; destruct (G _ _ L) as (r & Er); rewrite Er.
  - rewrite firstn_app. replace (Z.to_nat n - length (flat_map T (seq 0 k)))%nat with 0%nat by lia. cbn [firstn]. rewrite app_nil_r. reflexivity.
  - rewrite firstn_app. replace (Z.to_nat n - length (flat_map T (seq 0 k')))%nat with 0%nat by lia. cbn [firstn]. rewrite app_nil_r. reflexivity.
Qed.

(** All lengths of pieces, for SHA-256. *)
Lemma digest256_any s chunks : Forall (Forall byte) chunks ->
  exists k d, (k < 64)%nat /\ digest Sha256 s chunks = Ok d /\ length d = 32%nat /\
    let p := concat chunks ++ [128] ++ repeat 0 k ++ bytes_be 8 (counted chunks) in len p mod 64 = 0 /\ digest256 p d.
Proof.
  intros H. destruct (run256_ok chunks H) as (k & d & K & E & L & _ & P). exists k, d. split; [exact K|]. split; [exact E|]. split; [exact L|exact P].
Qed.
(** A piece that SHA-1 does not survive. *)
Lemma sha1_crash data : zlen data = 2 ^ 32 - 1 -> digest Sha1 init1 [[0]; data] = Oob.
Proof.
  intros Hl. unfold digest, updates. cbn [fold_left bind hupdate Sha1 hinit].
  destruct (update1_ok init1 _ _ _ [0] rep1_init) as (s & E & R); [change (zlen [0]) with 1; lia|]. rewrite E. cbn [bind].
  destruct R as (_ & C0 & C1 & C & (junk & B) & LB & LR & _). change (0 + zlen [0]) with 1 in *. change (8 * 1 mod 2 ^ 64) with 8 in C.
  assert (Ec : count0 s = 8) by lia. unfold update1. rewrite Hl, Ec.
  change (u32 (2 ^ 32 - 1)) with (2 ^ 32 - 1). change (Z.land (Z.shiftr 8 3) 63) with 1. cbv zeta.
  change (63 <? u32 (1 + (2 ^ 32 - 1))) with false. cbn [bind]. change (u32 (2 ^ 32 - 1 - 0)) with (2 ^ 32 - 1).
  rewrite sub_ok by (rewrite ?Hl; lia). cbn [bind]. rewrite <- Hl, skipn_O, firstn_all2 by (unfold zlen; lia).
  unfold put. replace (1 + zlen data <=? zlen (buffer1 s)) with false by (unfold zlen in *; lia). rewrite andb_false_r. reflexivity.
Qed.
