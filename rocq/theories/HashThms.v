(** C86 to C94: hash functions, keyed hashes, derivation of keys, checksums, RC4 and the comparison of secrets. *)
From Coq Require Import ZArith List Lia.
From Verif Require Import Mach HashModel HashUse HashSpec HashBits HashBlk Hash256 Hash1b Hash5 HashMac HashInst HashSum HashRc4.
Import ListNotations.
Open Scope Z_scope.

(** C86: however a message is cut into pieces, and whatever the memory of the state held before, the digest is the same.
    Missing: SHA-256 pieces of 2^29 bytes or more, SHA-1 pieces within 64 bytes of 2^32 (see C87, C88). *)
Theorem C86_pieces_partial :
  forall chunks chunks', Forall (Forall byte) chunks -> Forall (Forall byte) chunks' -> concat chunks = concat chunks' ->
  (forall s s', Forall (fun c => len c < 2 ^ 29) chunks -> Forall (fun c => len c < 2 ^ 29) chunks' ->
     exists d, digest Sha256 s chunks = Ok d /\ digest Sha256 s' chunks' = Ok d) /\
  (forall s s', Forall (fun c => len c <= 2 ^ 32 - 64) chunks -> Forall (fun c => len c <= 2 ^ 32 - 64) chunks' ->
     exists d, digest Sha1 s chunks = Ok d /\ digest Sha1 s' chunks' = Ok d) /\
  (forall s s' : md5, length (buffer5 s) = 64%nat -> length (buffer5 s') = 64%nat ->
     exists d, digest Md5 s chunks = Ok d /\ digest Md5 s' chunks' = Ok d).
Proof.
  intros c c' Hb Hb' E. split; [|split].
  - intros s s' Hs Hs'. destruct (digest_gen Sha256 SHA256 _ _ _ init_256 upd_256 fin_256 s c I Hb Hs) as (d & A & _ & _ & D).
    destruct (digest_gen Sha256 SHA256 _ _ _ init_256 upd_256 fin_256 s' c' I Hb' Hs') as (d' & A' & _ & _ & D'). rewrite <- E in D'.
    rewrite (SHA256_unique _ _ _ D' D) in A'. exists d. split; assumption.
  - intros s s' Hs Hs'. destruct (digest_gen Sha1 SHA1 _ _ _ init_1 upd_1 fin_1 s c I Hb Hs) as (d & A & _ & _ & D).
    destruct (digest_gen Sha1 SHA1 _ _ _ init_1 upd_1 fin_1 s' c' I Hb' Hs') as (d' & A' & _ & _ & D'). rewrite <- E in D'.
    rewrite (SHA1_unique _ _ _ D' D) in A'. exists d. split; assumption.
  - intros s s' Hs Hs'. assert (T : forall l : list (list Z), Forall (fun _ => True) l) by (intros l; apply Forall_forall; intros; exact I).
    destruct (digest_gen Md5 MD5 _ _ _ init_5 upd_5 fin_5 s c Hs Hb (T c)) as (d & A & _ & _ & D).
    destruct (digest_gen Md5 MD5 _ _ _ init_5 upd_5 fin_5 s' c' Hs' Hb' (T c')) as (d' & A' & _ & _ & D'). rewrite <- E in D'.
    rewrite (MD5_unique _ _ _ D' D) in A'. exists d. split; assumption.
Qed.
Example C86_example : digest Sha256 init256 [[97]; []; [98; 99]] = digest Sha256 init256 [[97; 98; 99]] /\
  digest Sha1 init1 [repeat 7 63%nat; repeat 7 70%nat] = digest Sha1 init1 [repeat 7 133%nat] /\
  digest Md5 zero5 [[97]; []; [98; 99]] = digest Md5 (M5 5 5 (1, 2, 3, 4) (repeat 9 64%nat)) [[97; 98; 99]].
Proof. vm_compute. split; [reflexivity|split; reflexivity]. Qed.
Print Assumptions C86_pieces_partial.

(** C87: SHA-256 computes the digest of FIPS 180-4, which is one digest for each message. Missing: pieces of 2^29 bytes or more. *)
Theorem C87_sha256_partial :
  (forall s chunks, Forall (Forall byte) chunks -> Forall (fun c => len c < 2 ^ 29) chunks ->
     exists d, digest Sha256 s chunks = Ok d /\ len d = 32 /\ SHA256 (concat chunks) d) /\
  (forall data, Forall byte data -> len data < 2 ^ 29 -> exists d, hash256 data = Ok d /\ SHA256 data d) /\
  (forall m d d', SHA256 m d -> SHA256 m d' -> d = d').
Proof.
  split; [|split; [|exact SHA256_unique]].
  - intros s c Hb Hs. destruct (digest_gen Sha256 SHA256 _ _ _ init_256 upd_256 fin_256 s c I Hb Hs) as (d & A & L & _ & D). exists d. split; [exact A|split; [exact L|exact D]].
  - intros data Hb Hs. destruct (digest_gen Sha256 SHA256 _ _ _ init_256 upd_256 fin_256 init256 [data] I (Forall_cons _ Hb (Forall_nil _)) (Forall_cons (P := small256) data Hs (Forall_nil _))) as (d & A & _ & _ & D).
    exists d. cbn [concat] in D. rewrite app_nil_r in D. split; [exact A|exact D].
Qed.
(** What is hashed, for pieces of any length: the padding holds the lengths of the pieces, each taken modulo 2^32 bits. *)
Theorem C87_sha256_any :
  forall s chunks, Forall (Forall byte) chunks ->
  exists k d, (k < 64)%nat /\ digest Sha256 s chunks = Ok d /\
    let p := concat chunks ++ [128] ++ repeat 0 k ++ bytes_be 8 (counted chunks) in len p mod 64 = 0 /\ digest256 p d.
Proof. intros s c H. destruct (digest256_any s c H) as (k & d & K & E & _ & P). exists k, d. split; [exact K|]. split; [exact E|exact P]. Qed.
(** So a piece of 2^29 bytes or more (and less than 2^61) is hashed with a wrong length: the padding is not that of the message. *)
Theorem C87_sha256_refuted :
  forall s data, Forall byte data -> 2 ^ 29 <= len data < 2 ^ 61 ->
  exists p d, digest Sha256 s [data] = Ok d /\ digest256 p d /\ ~ padded (bytes_be 8) data p.
Proof.
  intros s data Hb Hl. destruct (digest256_any s [data] (Forall_cons _ Hb (Forall_nil _))) as (k & d & K & E & _ & M & D). cbn [concat] in M, D. rewrite app_nil_r in M, D.
  eexists. exists d. split; [exact E|]. split; [exact D|]. intros (k' & K' & Ep & M'). apply app_inv_head in Ep. apply app_inv_head in Ep.
  assert (Ek : k = k') by (apply (f_equal (@length Z)) in Ep; rewrite !app_length, !repeat_length, !bytes_be_length in Ep; lia). subst k'. apply app_inv_head in Ep.
  unfold counted in Ep. cbn [fold_left] in Ep. unfold bytes_be in Ep. apply (f_equal (@rev Z)) in Ep. rewrite !rev_involutive in Ep.
  assert (V : forall n x, 0 <= x < 256 ^ Z.of_nat n -> forall y, 0 <= y < 256 ^ Z.of_nat n -> bytes_le n x = bytes_le n y -> x = y).
  { clear. induction n as [|n IH]; intros x Hx y Hy H; [change (256 ^ Z.of_nat 0) with 1 in *; lia|]. cbn [bytes_le] in H. injection H as H0 H1.
    rewrite Nat2Z.inj_succ, Z.pow_succ_r in Hx, Hy by lia.
    apply IH in H1; [rewrite (Z.div_mod x 256), (Z.div_mod y 256) by lia; lia|split; [apply Z.div_pos; lia|apply Z.div_lt_upper_bound; lia]..]. }
  change (zlen data) with (len data) in Ep. change (0 + ?x) with x in Ep.
  pose proof (Z.mod_pos_bound (8 * len data) (2 ^ 32) ltac:(lia)) as R. rewrite (Z.mod_small _ (2 ^ 64)) in Ep by lia.
  apply V in Ep; change (256 ^ Z.of_nat 8) with (2 ^ 64) in *; lia.
Qed.
Example C87_example : hash256 [97; 98; 99] =
  Ok [0xba; 0x78; 0x16; 0xbf; 0x8f; 0x01; 0xcf; 0xea; 0x41; 0x41; 0x40; 0xde; 0x5d; 0xae; 0x22; 0x23; 0xb0; 0x03; 0x61; 0xa3; 0x96; 0x17; 0x7a; 0x9c; 0xb4; 0x10; 0xff; 0x61; 0xf2; 0x00; 0x15; 0xad].
Proof. vm_compute. reflexivity. Qed.
Example C87_refuted_example : Forall byte (repeat 0 (Z.to_nat (2 ^ 29))) /\ 2 ^ 29 <= len (repeat 0 (Z.to_nat (2 ^ 29))) < 2 ^ 61.
Proof.
  split; [apply Forall_forall; intros x Hx; apply repeat_spec in Hx; subst x; unfold byte; lia|]. unfold len. rewrite repeat_length, Z2Nat.id; lia.
Qed.
Print Assumptions C87_sha256_partial.
Print Assumptions C87_sha256_any.
Print Assumptions C87_sha256_refuted.

(** C88: SHA-1 computes the digest of FIPS 180-4. Missing: pieces within 64 bytes of 2^32. *)
Theorem C88_sha1_partial :
  (forall s chunks, Forall (Forall byte) chunks -> Forall (fun c => len c <= 2 ^ 32 - 64) chunks ->
     exists d, digest Sha1 s chunks = Ok d /\ len d = 20 /\ SHA1 (concat chunks) d) /\
  (forall data, Forall byte data -> len data <= 2 ^ 32 - 64 -> exists d, hash1 data = Ok d /\ SHA1 data d) /\
  (forall m d d', SHA1 m d -> SHA1 m d' -> d = d').
Proof.
  split; [|split; [|exact SHA1_unique]].
  - intros s c Hb Hs. destruct (digest_gen Sha1 SHA1 _ _ _ init_1 upd_1 fin_1 s c I Hb Hs) as (d & A & L & _ & D). exists d. split; [exact A|split; [exact L|exact D]].
  - intros data Hb Hs. destruct (digest_gen Sha1 SHA1 _ _ _ init_1 upd_1 fin_1 init1 [data] I (Forall_cons _ Hb (Forall_nil _)) (Forall_cons (P := small1) data Hs (Forall_nil _))) as (d & A & _ & _ & D).
    exists d. cbn [concat] in D. rewrite app_nil_r in D. split; [exact A|exact D].
Qed.
(** The contract allows pieces up to uint.max; after one byte a piece of that length is copied past the end of the buffer. *)
Theorem C88_sha1_refuted : exists chunks, Forall (Forall byte) chunks /\ Forall (fun c => len c <= 2 ^ 32 - 1) chunks /\ digest Sha1 init1 chunks = Oob.
Proof.
  assert (H : exists data, Forall byte data /\ len data = 2 ^ 32 - 1).
  { exists (repeat 0 (Z.to_nat (2 ^ 32 - 1))). split; [|unfold len; rewrite repeat_length, Z2Nat.id; lia].
    apply Forall_forall. intros x Hx. apply repeat_spec in Hx. subst x. unfold byte. lia. }
  destruct H as (data & Hb & L). exists [[0]; data]. split; [|split; [|exact (sha1_crash _ L)]].
  - apply Forall_cons; [apply Forall_cons; [unfold byte; lia|apply Forall_nil]|]. apply Forall_cons; [exact Hb|apply Forall_nil].
  - apply Forall_cons; [change (len [0]) with 1; lia|]. apply Forall_cons; [rewrite L; lia|apply Forall_nil].
Qed.
Example C88_example : hash1 [97; 98; 99] =
  Ok [0xa9; 0x99; 0x3e; 0x36; 0x47; 0x06; 0x81; 0x6a; 0xba; 0x3e; 0x25; 0x71; 0x78; 0x50; 0xc2; 0x6c; 0x9c; 0xd0; 0xd8; 0x9d].
Proof. vm_compute. reflexivity. Qed.
Print Assumptions C88_sha1_partial.
Print Assumptions C88_sha1_refuted.

(** C89: MD5 computes the digest of RFC 1321, for pieces and messages of any length. *)
Theorem C89_md5 :
  (forall s chunks, length (buffer5 s) = 64%nat -> Forall (Forall byte) chunks ->
     exists d, digest Md5 s chunks = Ok d /\ len d = 16 /\ MD5 (concat chunks) d) /\
  (forall data, Forall byte data -> exists d, hash5 data = Ok d /\ MD5 data d) /\
  (forall m d d', MD5 m d -> MD5 m d' -> d = d').
Proof.
  assert (T : forall l : list (list Z), Forall (fun _ => True) l) by (intros l; apply Forall_forall; intros; exact I).
  split; [|split; [|exact MD5_unique]].
  - intros s c Hs Hb. destruct (digest_gen Md5 MD5 _ _ _ init_5 upd_5 fin_5 s c Hs Hb (T c)) as (d & A & L & _ & D). exists d. split; [exact A|split; [exact L|exact D]].
  - intros data Hb. destruct (digest_gen Md5 MD5 _ _ _ init_5 upd_5 fin_5 zero5 [data] eq_refl (Forall_cons _ Hb (Forall_nil _)) (T [data])) as (d & A & _ & _ & D).
    exists d. cbn [concat] in D. rewrite app_nil_r in D. split; [exact A|exact D].
Qed.
Example C89_example : hash5 [97; 98; 99] = Ok [0x90; 0x01; 0x50; 0x98; 0x3c; 0xd2; 0x4f; 0xb0; 0xd6; 0x96; 0x3f; 0x7d; 0x28; 0xe1; 0x7f; 0x72].
Proof. vm_compute. reflexivity. Qed.
Print Assumptions C89_md5.

(** C90: the keyed hash is the HMAC of RFC 2104 over each of the three functions, in any pieces and from any memory.
    Missing: keys and pieces beyond the limits of C87 and C88. *)
Theorem C90_hmac_partial :
  (forall h key chunks, Forall byte key -> Forall (Forall byte) chunks ->
     len key < 2 ^ 29 -> Forall (fun c => len c < 2 ^ 29) chunks ->
     exists d, hmac_digest Sha256 h key chunks = Ok d /\ len d = 32 /\ HMAC SHA256 key (concat chunks) d) /\
  (forall h key chunks, Forall byte key -> Forall (Forall byte) chunks ->
     len key <= 2 ^ 32 - 64 -> Forall (fun c => len c <= 2 ^ 32 - 64) chunks ->
     exists d, hmac_digest Sha1 h key chunks = Ok d /\ len d = 20 /\ HMAC SHA1 key (concat chunks) d) /\
  (forall h key chunks, Forall byte key -> Forall (Forall byte) chunks ->
     length (buffer5 (fst h)) = 64%nat -> length (buffer5 (snd h)) = 64%nat ->
     exists d, hmac_digest Md5 h key chunks = Ok d /\ len d = 16 /\ HMAC MD5 key (concat chunks) d) /\
  (forall A h key message, hmac A h key message = hmac_digest A h key [message]) /\
  (forall (Hash : list Z -> list Z -> Prop) key text d d', (forall m x y, Hash m x -> Hash m y -> x = y) -> HMAC Hash key text d -> HMAC Hash key text d' -> d = d').
Proof.
  split; [|split; [|split; [|split; [|exact HMAC_unique]]]].
  - intros h key c Hk Hb Sk Sc.
    apply (hmac_gen Sha256 SHA256 (fun _ => True) Rep256 small256 init_256 upd_256 fin_256); try assumption; try exact I; try (intros; exact I).
    + intros d Hd. unfold small256. lia.
    + split; cbn; lia.
  - intros h key c Hk Hb Sk Sc.
    apply (hmac_gen Sha1 SHA1 (fun _ => True) Rep1 small1 init_1 upd_1 fin_1); try assumption; try exact I; try (intros; exact I).
    + intros d Hd. unfold small1. lia.
    + split; cbn; lia.
  - intros h key c Hk Hb Ra Rb.
    apply (hmac_gen Md5 MD5 Ready5 Rep5 (fun _ => True) init_5 upd_5 fin_5 ready_5); try assumption; try exact I; try (intros; exact I).
    + split; cbn; lia.
    + apply Forall_forall. intros; exact I.
  - intros A h key m. unfold hmac, hmac_digest. destruct (hmac_init A h key) as [h'| |]; reflexivity.
Qed.
Example C90_example : hmac Md5 (zero5, zero5) (repeat 0xaa 80%nat) [84; 101; 115; 116] = hmac_digest Md5 (zero5, zero5) (repeat 0xaa 80%nat) [[84]; [101; 115; 116]] /\
  hmac Md5 (zero5, zero5) [74; 101; 102; 101] [119; 104; 97; 116; 32; 100; 111; 32; 121; 97; 32; 119; 97; 110; 116; 32; 102; 111; 114; 32; 110; 111; 116; 104; 105; 110; 103; 63] =
  Ok [0x75; 0x0c; 0x78; 0x3e; 0x6a; 0xb0; 0xb5; 0x03; 0xea; 0xa8; 0x6e; 0x31; 0x0a; 0x5d; 0xb7; 0x38].
Proof. vm_compute. split; reflexivity. Qed.
Print Assumptions C90_hmac_partial.

(** C91: keys are derived as in RFC 8018 section 5.2, into an output of any length, for 1 to 2^31 - 1 iterations ([fuel] only bounds
    the loop of the model). Missing: more iterations, and the lengths beyond the limits of C87 and C88. *)
Theorem C91_pbkdf2_partial :
  (forall h pw salt iterations outlen fuel, Forall byte pw -> Forall byte salt -> len pw < 2 ^ 29 -> len salt < 2 ^ 29 ->
     1 <= iterations < 2 ^ 31 -> iterations <= Z.of_nat fuel -> 0 <= outlen ->
     exists dk, pbkdf2 Sha256 fuel h pw salt iterations outlen = Ok dk /\ PBKDF2 SHA256 pw salt (Z.to_nat iterations) outlen dk) /\
  (forall h pw salt iterations outlen fuel, Forall byte pw -> Forall byte salt -> len pw <= 2 ^ 32 - 64 -> len salt <= 2 ^ 32 - 64 ->
     1 <= iterations < 2 ^ 31 -> iterations <= Z.of_nat fuel -> 0 <= outlen ->
     exists dk, pbkdf2 Sha1 fuel h pw salt iterations outlen = Ok dk /\ PBKDF2 SHA1 pw salt (Z.to_nat iterations) outlen dk) /\
  (forall h pw salt iterations outlen fuel, Forall byte pw -> Forall byte salt -> length (buffer5 (fst h)) = 64%nat -> length (buffer5 (snd h)) = 64%nat ->
     1 <= iterations < 2 ^ 31 -> iterations <= Z.of_nat fuel -> 0 <= outlen ->
     exists dk, pbkdf2 Md5 fuel h pw salt iterations outlen = Ok dk /\ PBKDF2 MD5 pw salt (Z.to_nat iterations) outlen dk) /\
  (forall (Hash : list Z -> list Z -> Prop) pw salt c n d d', (forall m x y, Hash m x -> Hash m y -> x = y) -> PBKDF2 Hash pw salt c n d -> PBKDF2 Hash pw salt c n d' -> d = d').
Proof.
  split; [|split; [|split; [|exact PBKDF2_unique]]].
  - intros h pw salt it o f Hp Hs Sp Ss Hi Hf Ho.
    apply (pbkdf2_gen Sha256 SHA256 (fun _ => True) Rep256 small256 init_256 upd_256 fin_256); try assumption; try exact I; try (intros; exact I).
    + intros d Hd. unfold small256. lia.
    + split; cbn; lia.
  - intros h pw salt it o f Hp Hs Sp Ss Hi Hf Ho.
    apply (pbkdf2_gen Sha1 SHA1 (fun _ => True) Rep1 small1 init_1 upd_1 fin_1); try assumption; try exact I; try (intros; exact I).
    + intros d Hd. unfold small1. lia.
    + split; cbn; lia.
  - intros h pw salt it o f Hp Hs Ra Rb Hi Hf Ho.
    apply (pbkdf2_gen Md5 MD5 Ready5 Rep5 (fun _ => True) init_5 upd_5 fin_5 ready_5); try assumption; try exact I; try (intros; exact I).
    split; cbn; lia.
Qed.
(** With 2^31 or more iterations, which the type allows, the derivation never ends. *)
Theorem C91_pbkdf2_refuted :
  forall h pw salt iterations outlen fuel, Forall byte pw -> Forall byte salt -> len pw < 2 ^ 29 -> len salt < 2 ^ 29 ->
  2 ^ 31 <= iterations < 2 ^ 32 -> 0 < outlen -> pbkdf2 Sha256 fuel h pw salt iterations outlen = Fuel.
Proof.
  intros h pw salt it o f Hp Hs Sp Ss Hi Ho.
  apply (pbkdf2_endless Sha256 SHA256 (fun _ => True) Rep256 small256 init_256 upd_256 fin_256); try assumption; try exact I; try (intros; exact I); try lia.
  - intros d Hd. unfold small256. lia.
  - split; cbn; lia.
Qed.
Example C91_example : pbkdf2 Sha1 5 (init1, init1) [112; 97; 115; 115; 119; 111; 114; 100] [115; 97; 108; 116] 2 20 =
  Ok [0xea; 0x6c; 0x01; 0x4d; 0xc7; 0x2d; 0x6f; 0x8c; 0xcd; 0x1e; 0xd9; 0x2a; 0xce; 0x1d; 0x41; 0xf0; 0xd8; 0xde; 0x89; 0x57].
Proof. vm_compute. reflexivity. Qed.
Print Assumptions C91_pbkdf2_partial.
Print Assumptions C91_pbkdf2_refuted.

(** C92: the cyclic redundancy checks are the remainders of the published polynomials, in any pieces; a CRC-32 can be taken up again
    from its value; there is one such value. *)
Theorem C92_crc :
  (forall chunks, Forall (Forall byte) chunks ->
     CRC32 (concat chunks) (crc32_final (fold_left crc32_update chunks (crc32_init 0))) /\ CRC32 (concat chunks) (crc32_hash (concat chunks)) /\
     CRC64 (concat chunks) (fold_left crc64_update chunks (crc64_init 0)) /\ CRC64 (concat chunks) (crc64_hash (concat chunks))) /\
  (forall a b, Forall byte a -> Forall byte b -> crc32_final (crc32_update (crc32_init (crc32_hash a)) b) = crc32_hash (a ++ b)) /\
  (forall m x y, CRC32 m x -> CRC32 m y -> x = y) /\ (forall m x y, CRC64 m x -> CRC64 m y -> x = y).
Proof.
  assert (G32 : forall chunks r, fold_left crc32_update chunks r = crc32_update r (concat chunks)).
  { induction chunks as [|c t IH]; intros r; [reflexivity|]. cbn [fold_left concat]. rewrite IH. unfold crc32_update. rewrite fold_left_app. reflexivity. }
  assert (G64 : forall chunks r, fold_left crc64_update chunks r = crc64_update r (concat chunks)).
  { induction chunks as [|c t IH]; intros r; [reflexivity|]. cbn [fold_left concat]. rewrite IH. unfold crc64_update. rewrite fold_left_app. reflexivity. }
  split; [|split; [|split; [exact CRC32_unique|exact CRC64_unique]]].
  - intros c Hc. apply Forall_concat in Hc. rewrite G32, G64.
    pose proof (crc32_ok _ Hc) as A. pose proof (crc64_ok _ Hc) as B. split; [exact A|]. split; [exact A|]. split; [exact B|exact B].
  - intros a b Ha Hb. unfold crc32_hash, crc32_final, crc32_init. pose proof (update32_range a (2 ^ 32 - 1) ltac:(lia)) as R.
    change (not32 0) with (2 ^ 32 - 1). fold (crc32_update (2 ^ 32 - 1) a). fold (crc32_update (2 ^ 32 - 1) (a ++ b)).
    rewrite (not32_eq (crc32_update _ a)) by exact R. rewrite (not32_eq (neg _)) by (unfold word, neg; lia).
    replace (neg (neg (crc32_update (2 ^ 32 - 1) a))) with (crc32_update (2 ^ 32 - 1) a) by (unfold neg; lia). unfold crc32_update. rewrite fold_left_app. reflexivity.
Qed.
Example C92_example : crc32_hash [49; 50; 51; 52; 53; 54; 55; 56; 57] = 0xcbf43926 /\ crc64_hash [49; 50; 51; 52; 53; 54; 55; 56; 57] = 0x6c40df5f0b497347.
Proof. vm_compute. split; reflexivity. Qed.
Print Assumptions C92_crc.

(** C93: a changed byte always changes the checksum; Adler-32 is that of RFC 1950; pieces make no difference. *)
Theorem C93_checksums :
  (forall m m', Forall byte m -> Forall byte m' -> one_byte_apart m m' ->
     crc32_hash m <> crc32_hash m' /\ crc64_hash m <> crc64_hash m' /\ adler_hash m <> adler_hash m' /\ fnv32_hash m <> fnv32_hash m' /\ fnv64_hash m <> fnv64_hash m') /\
  (forall chunks, Forall (Forall byte) chunks ->
     adler_hash (concat chunks) = ADLER32 (concat chunks) /\ adler_final (fold_left adler_update chunks adler_init) = ADLER32 (concat chunks) /\
     fold_left fnv32_update chunks fnv32_init = fnv32_hash (concat chunks) /\ fold_left fnv64_update chunks fnv64_init = fnv64_hash (concat chunks)).
Proof.
  assert (G : forall {S} (step : S -> Z -> S) chunks r, fold_left (fun r d => fold_left step d r) chunks r = fold_left step (concat chunks) r).
  { intros S step. induction chunks as [|c t IH]; intros r; [reflexivity|]. cbn [fold_left concat]. rewrite IH, fold_left_app. reflexivity. }
  split.
  - intros m m' Hm Hm' H. split; [apply crc32_one; assumption|]. split; [apply crc64_one; assumption|]. split; [apply adler_one; assumption|]. split; [apply fnv32_one|apply fnv64_one]; assumption.
  - intros c Hc. apply Forall_concat in Hc. pose proof (adler_ok _ Hc) as A. split; [exact A|]. split; [|split; [apply (G Z fnv32_updatec)|apply (G Z fnv64_updatec)]].
    rewrite <- A. unfold adler_hash. f_equal. apply (G (Z * Z)%type adler_updatec).
Qed.
Example C93_example : one_byte_apart [1; 2; 3] [1; 9; 3] /\ adler_hash [87; 105; 107; 105; 112; 101; 100; 105; 97] = 0x11e60398 /\ fnv32_hash [97] = 0xe40c292c /\ fnv64_hash [97] = 0xaf63dc4c8601ec8c.
Proof. split; [exists [1], 2, 9, [3]; split; [reflexivity|split; [reflexivity|lia]]|]. vm_compute. split; [reflexivity|split; reflexivity]. Qed.
Print Assumptions C93_checksums.

(** C94: RC4 is the published cipher, in any pieces, and decrypts what it encrypted; the comparison of secrets tells exactly whether the bytes are equal. *)
Theorem C94_rc4 :
  (forall key data, key <> [] -> RC4 key data (rc4_once key data)) /\
  (forall key data out out', RC4 key data out -> RC4 key data out' -> out = out') /\
  (forall key data, rc4_once key (rc4_once key data) = data) /\
  (forall key chunks, crypt_chunks (rc4_init key) chunks = rc4_once key (concat chunks)) /\
  (forall a b n, 0 <= n <= len a -> n <= len b -> exists r, safe_compare a b n = Ok r /\ (r = true <-> firstn (Z.to_nat n) a = firstn (Z.to_nat n) b)).
Proof.
  split; [|split; [exact RC4_unique|split; [|split]]].
  - intros key data H. apply rc4_spec. destruct key; [contradiction|cbn [length]; lia].
  - intros key data. apply crypt_twice.
  - intros key chunks. apply crypt_chunks_eq.
  - intros a b n Hn Hb. apply safe_ok; [lia|apply Hn|exact Hb].
Qed.
Example C94_example : rc4_once [75; 101; 121] [80; 108; 97; 105; 110; 116; 101; 120; 116] = [0xbb; 0xf3; 0x16; 0xe8; 0xd9; 0x40; 0xaf; 0x0a; 0xd3] /\
  safe_compare [1; 2; 3] [1; 2; 4] 2 = Ok true /\ safe_compare [1; 2; 3] [1; 2; 4] 3 = Ok false.
Proof. vm_compute. split; [reflexivity|split; reflexivity]. Qed.
Print Assumptions C94_rc4.
