(** The keyed hash and the derivation of keys, over any of the three hash functions; the published functions are functions. *)
From Coq Require Import ZArith Bool List Lia ZifyBool.
From Verif Require Import Mach ListAux HashModel HashUse HashSpec HashBits HashBlk Hash256 Hash1 Hash1b Hash5.
Import ListNotations.
Open Scope Z_scope.

Section Mac.
Context (A : alg) (Hash : list Z -> list Z -> Prop) (Ready : hstate A -> Prop) (Rep : hstate A -> list Z -> Prop) (small : list Z -> Prop).
Context (Hinit : forall s, Ready s -> Rep (hinit A s) []).
Context (Hupd : forall s m d, Rep s m -> Forall byte d -> small d -> exists s', hupdate A s d = Ok s' /\ Rep s' (m ++ d)).
Context (Hfin : forall s m, Rep s m -> exists d, hfinal A s = Ok d /\ zlen d = hsize A /\ Forall byte d /\ Hash m d).
Context (Hready : forall s m, Rep s m -> Ready s).
Context (Hsmall : forall d, zlen d <= 64 -> small d).
Context (Hsize : 1 <= hsize A <= 64).

Lemma updates_gen chunks : forall s m, Rep s m -> Forall (Forall byte) chunks -> Forall small chunks ->
  exists s', updates A s chunks = Ok s' /\ Rep s' (m ++ concat chunks).
Proof.
  unfold updates. induction chunks as [|c t IH]; intros s m H Hb Hc; cbn [fold_left concat].
  - exists s. rewrite app_nil_r. split; [reflexivity|exact H].
  - apply Forall_cons_iff in Hb, Hc. destruct Hb as [Hb Hbt], Hc as [Hc Hct]. cbn [bind].
    destruct (Hupd s m c H Hb Hc) as (s' & E & R). rewrite E. destruct (IH s' (m ++ c) R Hbt Hct) as (s'' & E' & R'). exists s''.
    rewrite app_assoc. split; [exact E'|exact R'].
Qed.
Lemma digest_gen s chunks : Ready s -> Forall (Forall byte) chunks -> Forall small chunks ->
  exists d, digest A s chunks = Ok d /\ zlen d = hsize A /\ Forall byte d /\ Hash (concat chunks) d.
Proof.
  intros Hs Hb Hc. destruct (updates_gen chunks _ [] (Hinit s Hs) Hb Hc) as (s' & E & R). unfold digest. rewrite E. cbn [bind].
  apply (Hfin s' (concat chunks)). exact R.
Qed.

Definition keyed (k : list Z) (h : hstate A * hstate A) (text : list Z) : Prop := Rep (fst h) (xor_byte 0x36 k ++ text) /\ Rep (snd h) (xor_byte 0x5c k).
Lemma xor_all_eq k l : xor_all k l = xor_byte k l.
Proof. reflexivity. Qed.
Lemma xor_twice l : xor_byte 92 l = xor_byte (Z.lxor 54 92) (xor_byte 54 l).
Proof.
  unfold xor_byte. rewrite map_map. apply map_ext. intros x. unfold xor. rewrite Z.lxor_assoc, <- (Z.lxor_assoc 54 54), Z.lxor_nilpotent, Z.lxor_0_l. reflexivity.
Qed.
Lemma xor_byte_ok k l : byte k -> Forall byte l -> Forall byte (xor_byte k l).
Proof.
  intros Hk Hl. unfold xor_byte. apply Forall_map. apply Forall_impl with (P := byte); [|exact Hl]. intros x Hx. unfold byte, xor in *.
  change 256 with (2 ^ 8). apply lxor_range; lia.
Qed.
Lemma xor_byte_len k l : zlen (xor_byte k l) = zlen l.
Proof. unfold zlen, xor_byte. rewrite map_length. reflexivity. Qed.
Definition key_block (key k : list Z) : Prop :=
  exists k0, (if len key <=? 64 then k0 = key else Hash key k0) /\ k = k0 ++ repeat 0 (64 - length k0).
Lemma hmac_init_gen h key : Ready (fst h) -> Ready (snd h) -> Forall byte key -> small key ->
  exists k h', hmac_init A h key = Ok h' /\ key_block key k /\ keyed k h' [].
Proof.
  intros Ra Rb Hb Hc. unfold hmac_init.
  assert (Z64 : zlen (zeros 64) = 64) by reflexivity.
  assert (K : exists ha k k0, (if 64 <? zlen key then
                      a <- hupdate A (hinit A (fst h)) key ;; d <- hfinal A a ;; b <- put (zeros 64) 0 d ;; Ok (a, b)
                    else b <- put (zeros 64) 0 key ;; Ok (fst h, b)) = Ok (ha, k) /\ Ready ha /\
                    (if len key <=? 64 then k0 = key else Hash key k0) /\ k = k0 ++ repeat 0 (64 - length k0) /\ zlen k0 <= 64 /\ Forall byte k0).
  { assert (P : forall d, zlen d <= 64 -> put (zeros 64) 0 d = Ok (d ++ repeat 0 (64 - length d))).
    { intros d Hd. rewrite put0 by lia. do 2 f_equal. unfold zeros. change (Z.to_nat 64) with (64)%nat. unfold zlen in Hd.
      replace 64%nat with (length d + (64 - length d))%nat at 1 by lia. rewrite repeat_app. apply skipn_app_len. rewrite repeat_length. reflexivity. }
    change (len key) with (zlen key). destruct (Z.ltb_spec 64 (zlen key)) as [L|L].
    - replace (zlen key <=? 64) with false by lia.
      destruct (Hupd _ [] key (Hinit _ Ra) Hb Hc) as (s & E & R). cbn [app] in R. rewrite E. cbn [bind].
      destruct (Hfin s key R) as (d & E2 & Ld & Bd & Hd). rewrite E2. cbn [bind]. rewrite P by lia. cbn [bind].
      exists s, (d ++ repeat 0 (64 - length d)), d. split; [reflexivity|]. split; [exact (Hready _ _ R)|]. split; [exact Hd|]. split; [reflexivity|]. split; [lia|exact Bd].
    - replace (zlen key <=? 64) with true by lia. rewrite P by lia. cbn [bind].
      exists (fst h), (key ++ repeat 0 (64 - length key)), key. split; [reflexivity|]. split; [exact Ra|]. split; [reflexivity|]. split; [reflexivity|]. split; [lia|exact Hb]. }
  destruct K as (ha & k & k0 & E & Rha & Hk0 & Ek & L0 & B0). rewrite E. cbn [bind]. cbv zeta.
  assert (Bk : Forall byte k).
  { subst k. apply Forall_app. split; [exact B0|]. apply Forall_forall. intros x Hx. apply repeat_spec in Hx. subst x. unfold byte. lia. }
  assert (Lk : zlen k = 64) by (subst k; unfold zlen in *; rewrite app_length, repeat_length; lia).
  rewrite !xor_all_eq. destruct (Hupd _ [] (xor_byte 54 k) (Hinit _ Rha)) as (a & Ea & Ra').
  { apply xor_byte_ok; [unfold byte; lia|exact Bk]. } { apply Hsmall. rewrite xor_byte_len. lia. }
  rewrite Ea. cbn [bind]. rewrite xor_all_eq, <- (xor_twice k).
  destruct (Hupd _ [] (xor_byte 92 k) (Hinit _ Rb)) as (b & Eb & Rb').
  { apply xor_byte_ok; [unfold byte; lia|exact Bk]. } { apply Hsmall. rewrite xor_byte_len. lia. }
  rewrite Eb. cbn [bind]. exists k, (a, b). split; [reflexivity|]. split; [exists k0; split; [exact Hk0|exact Ek]|].
  split; [rewrite app_nil_r; exact Ra'|exact Rb'].
Qed.
Lemma hmac_update_gen k h text d : keyed k h text -> Forall byte d -> small d ->
  exists h', hmac_update A h d = Ok h' /\ keyed k h' (text ++ d).
Proof.
  intros (Ra & Rb) Hb Hc. unfold hmac_update. destruct (Hupd _ _ d Ra Hb Hc) as (a & E & R). rewrite E. cbn [bind].
  exists (a, snd h). split; [reflexivity|]. split; [rewrite app_assoc; exact R|exact Rb].
Qed.
Lemma hmac_final_gen key k h text : key_block key k -> keyed k h text ->
  exists d, hmac_final A h = Ok d /\ zlen d = hsize A /\ Forall byte d /\ HMAC Hash key text d.
Proof.
  intros (k0 & Hk0 & Ek) (Ra & Rb). unfold hmac_final. destruct (Hfin _ _ Ra) as (inner & E & L & B & H). rewrite E. cbn [bind].
  destruct (Hupd _ _ inner Rb B (Hsmall inner ltac:(lia))) as (b & E2 & R2). rewrite E2. cbn [bind].
  destruct (Hfin _ _ R2) as (d & E3 & L3 & B3 & H3). exists d. split; [exact E3|]. split; [exact L3|]. split; [exact B3|].
  exists k0, inner. split; [exact Hk0|]. cbv zeta. rewrite <- Ek. split; [exact H|exact H3].
Qed.
Lemma hmac_gen h key chunks : Ready (fst h) -> Ready (snd h) -> Forall byte key -> small key -> Forall (Forall byte) chunks -> Forall small chunks ->
  exists d, hmac_digest A h key chunks = Ok d /\ zlen d = hsize A /\ HMAC Hash key (concat chunks) d.
Proof.
  intros Ra Rb Hk Sk Hb Hc. unfold hmac_digest. destruct (hmac_init_gen h key Ra Rb Hk Sk) as (k & h' & E & KB & K). rewrite E. cbn [bind].
  assert (G : forall text h, keyed k h text -> exists h', fold_left (fun r c => h <- r ;; hmac_update A h c) chunks (Ok h) = Ok h' /\ keyed k h' (text ++ concat chunks)).
  { clear h E K h' Ra Rb. induction chunks as [|c t IH]; intros text h K; cbn [fold_left concat].
    - exists h. rewrite app_nil_r. split; [reflexivity|exact K].
    - apply Forall_cons_iff in Hb, Hc. destruct Hb as [Hb Hbt], Hc as [Hc Hct]. cbn [bind].
      destruct (hmac_update_gen k h text c K Hb Hc) as (h' & E & K'). rewrite E. destruct (IH Hbt Hct _ _ K') as (h'' & E' & K''). exists h''.
      rewrite app_assoc. split; [exact E'|exact K'']. }
  destruct (G [] h' K) as (h'' & E2 & K2). rewrite E2. cbn [bind].
  destruct (hmac_final_gen key k h'' _ KB K2) as (d & E3 & L & _ & H). exists d. split; [exact E3|]. split; [exact L|exact H].
Qed.

(** Derivation of keys. *)
Section Derive.
Context (key k : list Z) (start : hstate A * hstate A) (KB : key_block key k) (K : keyed k start []).
Let PRF := HMAC Hash key.
Lemma derive_loop_ok n : forall fuel iterations it tmp out,
  Z.of_nat n = iterations - it -> 1 <= it -> iterations < 2 ^ 31 -> (n <= fuel)%nat ->
  Forall byte tmp -> zlen tmp = hsize A -> zlen out = hsize A ->
  exists U r, derive_loop A fuel start iterations it tmp out = Ok r /\ zlen r = hsize A /\ U O = tmp /\
    (forall j, (j < n)%nat -> PRF (U j) (U (S j))) /\
    forall i, nth i r 0 = fold_left xor (map (fun j => nth i (U j) 0) (seq 1 n)) (nth i out 0).
Proof.
  induction n as [|n IH]; intros fuel iterations it tmp out Hn Hit Hmax Hf Hb Ht Ho.
  - exists (fun _ => tmp), out. destruct fuel; cbn [derive_loop]; replace (it <? iterations) with false by lia;
      (split; [reflexivity|]; split; [exact Ho|]; split; [reflexivity|]; split; [intros; lia|reflexivity]).
  - destruct fuel as [|fuel]; [lia|]. cbn [derive_loop]. replace (it <? iterations) with true by lia.
    destruct (hmac_update_gen k start [] tmp K Hb (Hsmall tmp ltac:(lia))) as (h & E & Kh). rewrite E. cbn [bind]. cbn [app] in Kh.
    destruct (hmac_final_gen key k h tmp KB Kh) as (t' & E2 & L2 & B2 & H2). rewrite E2. cbn [bind].
    replace (s32 (it + 1)) with (it + 1) by (unfold s32; rewrite Z.mod_small by lia; lia).
    set (out' := map (fun p => Z.lxor (fst p) (snd p)) (combine out t')).
    assert (Lo : zlen out' = hsize A) by (unfold out', zlen in *; rewrite map_length, combine_length; lia).
    destruct (IH fuel iterations (it + 1) t' out' ltac:(lia) ltac:(lia) Hmax ltac:(lia) B2 L2 Lo) as (U & r & E3 & L3 & U0 & HU & HX).
    exists (fun j => match j with O => tmp | S j => U j end), r. split; [exact E3|]. split; [exact L3|]. split; [reflexivity|]. split.
    + intros [|j] Hj; [cbn; rewrite U0; exact H2|apply HU; lia].
    + intros i. rewrite HX. cbn [seq map fold_left].
      replace (nth i out' 0) with (xor (nth i out 0) (nth i (U 0%nat) 0)).
      * rewrite <- (seq_shift n 1), map_map. reflexivity.
      * rewrite U0. unfold out'. change 0 with ((fun p => Z.lxor (fst p) (snd p)) (0, 0)) at 3. rewrite map_nth. unfold zlen in *. rewrite combine_nth by lia. reflexivity.
Qed.
Lemma derive_ok fuel salt iterations index : 1 <= iterations < 2 ^ 31 -> iterations <= Z.of_nat fuel -> Forall byte salt -> small salt ->
  exists T, derive A fuel start salt iterations index = Ok T /\ zlen T = hsize A /\ pbkdf2_block PRF salt (Z.to_nat iterations) index T.
Proof.
  intros Hi Hf Hb Hs. unfold derive. destruct (hmac_update_gen k start [] salt K Hb Hs) as (h & E & Kh). rewrite E. cbn [bind]. cbn [app] in Kh.
  assert (Bb : be_out (u32 index) = bytes_be 4 index).
  { rewrite be_out_eq by (unfold word, u32; apply Z.mod_pos_bound; lia). unfold u32. unfold bytes_be. f_equal. apply (bytes_le_mod 4 index). }
  rewrite Bb. destruct (hmac_update_gen k h salt (bytes_be 4 index) Kh (bytes_be_byte _ _)) as (h2 & E2 & Kh2).
  { apply Hsmall. unfold zlen. rewrite bytes_be_length. lia. }
  rewrite E2. cbn [bind]. destruct (hmac_final_gen key k h2 _ KB Kh2) as (t & E3 & L3 & B3 & H3). rewrite E3. cbn [bind].
  destruct (derive_loop_ok (Z.to_nat (iterations - 1)) fuel iterations 1 t t) as (U & r & E4 & L4 & U0 & HU & HX); try lia; try assumption.
  exists r. split; [exact E4|]. split; [exact L4|]. exists (fun j => U (j - 1)%nat). change (1 - 1)%nat with 0%nat. rewrite U0. split; [exact H3|]. split.
  - intros j Hj. replace (S j - 1)%nat with (S (j - 1)) by lia. apply HU. lia.
  - split; [unfold zlen in *; lia|]. intros n. rewrite HX. replace (Z.to_nat iterations) with (S (Z.to_nat (iterations - 1))) by lia.
    cbn [seq map fold_left]. change (1 - 1)%nat with 0%nat. rewrite U0. change (xor 0 (nth n t 0)) with (nth n t 0).
    rewrite <- (seq_shift _ 1), map_map. f_equal. apply map_ext. intros j. do 2 f_equal. lia.
Qed.
Lemma derive_endless fuel salt iterations index : 2 ^ 31 <= iterations -> Forall byte salt -> small salt ->
  derive A fuel start salt iterations index = Fuel.
Proof.
  intros Hi Hb Hs. unfold derive. destruct (hmac_update_gen k start [] salt K Hb Hs) as (h & E & Kh). rewrite E. cbn [bind]. cbn [app] in Kh.
  assert (Bb : be_out (u32 index) = bytes_be 4 index).
  { rewrite be_out_eq by (unfold word, u32; apply Z.mod_pos_bound; lia). unfold u32. unfold bytes_be. f_equal. apply (bytes_le_mod 4 index). }
  rewrite Bb. destruct (hmac_update_gen k h salt (bytes_be 4 index) Kh (bytes_be_byte _ _)) as (h2 & E2 & Kh2).
  { apply Hsmall. unfold zlen. rewrite bytes_be_length. lia. }
  rewrite E2. cbn [bind]. destruct (hmac_final_gen key k h2 _ KB Kh2) as (t & E3 & L3 & B3 & H3). rewrite E3. cbn [bind].
  assert (G : forall it tmp out, it < 2 ^ 31 -> Forall byte tmp -> zlen tmp = hsize A -> derive_loop A fuel start iterations it tmp out = Fuel).
  { clear - Hi K KB Hupd Hfin Hsmall Hsize. induction fuel as [|fuel IH]; intros it tmp out Hit Hb Ht; cbn [derive_loop]; replace (it <? iterations) with true by lia; [reflexivity|].
    destruct (hmac_update_gen k start [] tmp K Hb (Hsmall tmp ltac:(lia))) as (h & E & Kh). rewrite E. cbn [bind]. cbn [app] in Kh.
    destruct (hmac_final_gen key k h tmp KB Kh) as (t' & E2 & L2 & B2 & H2). rewrite E2. cbn [bind].
    apply IH; try assumption. unfold s32. pose proof (Z.mod_pos_bound (it + 1 + 2 ^ 31) (2 ^ 32)). lia. }
  apply G; [lia|assumption|assumption].
Qed.
End Derive.

Lemma pbkdf2_gen fuel h pw salt iterations outlen : Ready (fst h) -> Ready (snd h) -> Forall byte pw -> small pw -> Forall byte salt -> small salt ->
  1 <= iterations < 2 ^ 31 -> iterations <= Z.of_nat fuel -> 0 <= outlen ->
  exists dk, pbkdf2 A fuel h pw salt iterations outlen = Ok dk /\ PBKDF2 Hash pw salt (Z.to_nat iterations) outlen dk.
Proof.
  intros Ra Rb Hp Sp Hb Hs Hi Hf Ho. unfold pbkdf2. cbv zeta.
  destruct (hmac_init_gen h pw Ra Rb Hp Sp) as (k & start & E & KB & K). rewrite E. cbn [bind].
  set (T := fun i : nat => match derive A fuel start salt iterations (Z.of_nat i + 1) with Ok t => t | _ => [] end).
  assert (HT : forall i, derive A fuel start salt iterations (Z.of_nat i + 1) = Ok (T i) /\ zlen (T i) = hsize A /\
                         pbkdf2_block (HMAC Hash pw) salt (Z.to_nat iterations) (Z.of_nat i + 1) (T i)).
  { intros i. destruct (derive_ok pw k start KB K fuel salt iterations (Z.of_nat i + 1) Hi Hf Hb Hs) as (t & E1 & L1 & P1).
    unfold T. rewrite E1. split; [reflexivity|]. split; [exact L1|exact P1]. }
  clearbody T.
  assert (W : forall n i, pbkdf2_loop A fuel n start salt iterations (Z.of_nat i + 1) = Ok (flat_map T (seq i n))).
  { induction n as [|n IH]; intros i; cbn [pbkdf2_loop seq flat_map]; [reflexivity|].
    destruct (HT i) as (E1 & _ & _). rewrite E1. cbn [bind]. replace (Z.of_nat i + 1 + 1) with (Z.of_nat (S i) + 1) by lia. rewrite IH. reflexivity. }
  assert (LW : forall n i, zlen (flat_map T (seq i n)) = Z.of_nat n * hsize A).
  { induction n as [|n IH]; intros i; cbn [seq flat_map]; [reflexivity|]. destruct (HT i) as (_ & L1 & _). rewrite zlen_app, IH, L1. lia. }
  set (l := outlen / hsize A). pose proof (Z.div_mod outlen (hsize A) ltac:(lia)) as D. pose proof (Z.mod_pos_bound outlen (hsize A) ltac:(lia)) as D2.
  assert (D0 : 0 <= l) by (apply Z.div_pos; lia). fold l in D.
  change 1 with (Z.of_nat 0 + 1) at 1. rewrite W. cbn [bind].
  pose proof (LW (Z.to_nat l) 0%nat) as LL. 
  assert (Tail : forall dk, zlen dk = outlen -> (exists n, dk = firstn (Z.to_nat outlen) (flat_map T (seq 0 n))) -> PBKDF2 Hash pw salt (Z.to_nat iterations) outlen dk).
  { intros dk Ld Hd. exists T. split; [intros i; apply HT|]. split; [exact Ld|exact Hd]. }
  destruct (Z.ltb_spec 0 (outlen mod hsize A)) as [L|L].
  - replace (l + 1) with (Z.of_nat (Z.to_nat l) + 1) by lia. destruct (HT (Z.to_nat l)) as (E1 & L1 & _). rewrite E1. cbn [bind].
    rewrite sub_ok by lia. cbn [bind]. change (Z.to_nat 0) with 0%nat. rewrite skipn_O.
    eexists. split; [reflexivity|]. apply Tail.
    + rewrite zlen_app, LL, firstn_zlen by lia. lia.
    + exists (S (Z.to_nat l)). rewrite seq_S, flat_map_app. cbn [plus flat_map]. rewrite app_nil_r, firstn_app.
      rewrite (firstn_all2 (flat_map _ _)) by (unfold zlen in LL; nia). f_equal. f_equal. unfold zlen in LL. nia.
  - eexists. split; [reflexivity|]. apply Tail; [rewrite LL; lia|]. exists (Z.to_nat l). symmetry. apply firstn_all2. unfold zlen in LL. nia.
Qed.
Lemma pbkdf2_endless fuel h pw salt iterations outlen : Ready (fst h) -> Ready (snd h) -> Forall byte pw -> small pw -> Forall byte salt -> small salt ->
  2 ^ 31 <= iterations -> 0 < outlen -> pbkdf2 A fuel h pw salt iterations outlen = Fuel.
Proof.
  intros Ra Rb Hp Sp Hb Hs Hi Ho. unfold pbkdf2. cbv zeta.
  destruct (hmac_init_gen h pw Ra Rb Hp Sp) as (k & start & E & KB & K). rewrite E. cbn [bind].
  pose proof (Z.div_mod outlen (hsize A) ltac:(lia)) as D. pose proof (Z.mod_pos_bound outlen (hsize A) ltac:(lia)) as D2.
  destruct (Z.to_nat (outlen / hsize A)) as [|n] eqn:N; cbn [pbkdf2_loop].
  - cbn [bind]. assert (0 <= outlen / hsize A) by (apply Z.div_pos; lia). replace (0 <? outlen mod hsize A) with true by nia.
    rewrite (derive_endless pw k start KB K) by assumption. reflexivity.
  - rewrite (derive_endless pw k start KB K) by assumption. reflexivity.
Qed.
End Mac.
