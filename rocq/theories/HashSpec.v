(** The published definitions the hash functions are compared with: FIPS 180-4 (SHA-256, SHA-1), RFC 1321 (MD5), RFC 2104 (HMAC),
    RFC 8018 (PBKDF2), RFC 1950 (Adler-32) and the cyclic redundancy check as division of polynomials over the field with two elements.
    Nothing here mentions the model. *)
From Coq Require Import ZArith List.
Import ListNotations.
Open Scope Z_scope.

Definition byte (x : Z) : Prop := 0 <= x < 256.
Definition len (l : list Z) : Z := Z.of_nat (length l).

(** ** Words of 32 bits *)
Definition plus (x y : Z) : Z := (x + y) mod 2 ^ 32.
Definition neg (x : Z) : Z := 2 ^ 32 - 1 - x.
Definition ROTL (n x : Z) : Z := (x * 2 ^ n) mod 2 ^ 32 + x / 2 ^ (32 - n).
Definition ROTR (n x : Z) : Z := ROTL (32 - n) x.
Definition SHR (n x : Z) : Z := x / 2 ^ n.
Definition xor (x y : Z) : Z := Z.lxor x y.
Definition Ch (x y z : Z) : Z := xor (Z.land x y) (Z.land (neg x) z).
Definition Maj (x y z : Z) : Z := xor (xor (Z.land x y) (Z.land x z)) (Z.land y z).
Definition Parity (x y z : Z) : Z := xor (xor x y) z.

(** The t-th word of a block, most or least significant byte first; the bytes of a number, most or least significant first. *)
Definition word_be (M : list Z) (t : nat) : Z := nth (4 * t) M 0 * 2 ^ 24 + nth (4 * t + 1) M 0 * 2 ^ 16 + nth (4 * t + 2) M 0 * 2 ^ 8 + nth (4 * t + 3) M 0.
Definition word_le (M : list Z) (t : nat) : Z := nth (4 * t + 3) M 0 * 2 ^ 24 + nth (4 * t + 2) M 0 * 2 ^ 16 + nth (4 * t + 1) M 0 * 2 ^ 8 + nth (4 * t) M 0.
Fixpoint bytes_le (n : nat) (x : Z) : list Z := match n with O => [] | S m => x mod 256 :: bytes_le m (x / 256) end.
Definition bytes_be (n : nat) (x : Z) : list Z := rev (bytes_le n x).

(** ** Padding and chaining: FIPS 180-4 sections 5.1.1, 5.2.1 and 6; RFC 1321 sections 3.1 to 3.4 *)
Definition padded (length8 : Z -> list Z) (msg p : list Z) : Prop :=
  exists k : nat, (k < 64)%nat /\ p = msg ++ [128] ++ repeat 0 k ++ length8 (8 * len msg) /\ len p mod 64 = 0.
Definition block (p : list Z) (i : nat) : list Z := firstn 64 (skipn (64 * i) p).
(** [H] are the values of the chain: lists of words. *)
Definition chained (compress : list Z -> list Z -> list Z -> Prop) (iv p out : list Z) : Prop :=
  exists H : nat -> list Z,
    H O = iv /\ (forall i, (i < length p / 64)%nat -> compress (H i) (block p i) (H (S i))) /\ H (length p / 64)%nat = out.

(** ** SHA-256: FIPS 180-4 sections 4.1.2, 4.2.2, 5.3.3 and 6.2 *)
Definition primes : list Z := filter (fun n => forallb (fun d => negb (n mod d =? 0)) (map Z.of_nat (seq 2 (Z.to_nat n - 2)))) (map Z.of_nat (seq 2 310)).
(** The first thirty-two bits of the fractional parts of the square and the cube root. *)
Definition sqrt_frac (p k : Z) : Prop := exists r, 0 <= r /\ r ^ 2 <= p * 2 ^ 64 < (r + 1) ^ 2 /\ k = r mod 2 ^ 32.
Definition cbrt_frac (p k : Z) : Prop := exists r, 0 <= r /\ r ^ 3 <= p * 2 ^ 96 < (r + 1) ^ 3 /\ k = r mod 2 ^ 32.
Definition Sigma0 (x : Z) : Z := xor (xor (ROTR 2 x) (ROTR 13 x)) (ROTR 22 x).
Definition Sigma1 (x : Z) : Z := xor (xor (ROTR 6 x) (ROTR 11 x)) (ROTR 25 x).
Definition s0 (x : Z) : Z := xor (xor (ROTR 7 x) (ROTR 18 x)) (SHR 3 x).
Definition s1 (x : Z) : Z := xor (xor (ROTR 17 x) (ROTR 19 x)) (SHR 10 x).
Definition compress256 (H M H' : list Z) : Prop :=
  exists K W a b c d e f g h : nat -> Z,
    (forall t, (t < 64)%nat -> cbrt_frac (nth t primes 0) (K t)) /\
    (forall t, (t < 16)%nat -> W t = word_be M t) /\
    (forall t, (16 <= t < 64)%nat -> W t = plus (plus (plus (s1 (W (t - 2)%nat)) (W (t - 7)%nat)) (s0 (W (t - 15)%nat))) (W (t - 16)%nat)) /\
    H = [a O; b O; c O; d O; e O; f O; g O; h O] /\
    (forall t, (t < 64)%nat ->
       let T1 := plus (plus (plus (plus (h t) (Sigma1 (e t))) (Ch (e t) (f t) (g t))) (K t)) (W t) in
       let T2 := plus (Sigma0 (a t)) (Maj (a t) (b t) (c t)) in
       h (S t) = g t /\ g (S t) = f t /\ f (S t) = e t /\ e (S t) = plus (d t) T1 /\
       d (S t) = c t /\ c (S t) = b t /\ b (S t) = a t /\ a (S t) = plus T1 T2) /\
    H' = [plus (a O) (a 64%nat); plus (b O) (b 64%nat); plus (c O) (c 64%nat); plus (d O) (d 64%nat);
          plus (e O) (e 64%nat); plus (f O) (f 64%nat); plus (g O) (g 64%nat); plus (h O) (h 64%nat)].
(** The digest that comes out of an already padded message, and the digest of a message. *)
Definition digest256 (p digest : list Z) : Prop :=
  exists iv out, length iv = 8%nat /\ (forall i, (i < 8)%nat -> sqrt_frac (nth i primes 0) (nth i iv 0)) /\
                 chained compress256 iv p out /\ digest = flat_map (bytes_be 4) out.
Definition SHA256 (msg digest : list Z) : Prop := exists p, padded (bytes_be 8) msg p /\ digest256 p digest.

(** ** SHA-1: FIPS 180-4 sections 4.1.1, 4.2.1, 5.3.1 and 6.1 *)
Definition f1 (t : nat) (x y z : Z) : Z :=
  if (t <? 20)%nat then Ch x y z else if (t <? 40)%nat then Parity x y z else if (t <? 60)%nat then Maj x y z else Parity x y z.
(** The constants are 2^30 times the square roots of 2, 3, 5 and 10. *)
Definition K1 (t : nat) : Z := Z.sqrt ((if (t <? 20)%nat then 2 else if (t <? 40)%nat then 3 else if (t <? 60)%nat then 5 else 10) * 2 ^ 60).
Definition compress1 (H M H' : list Z) : Prop :=
  exists W a b c d e : nat -> Z,
    (forall t, (t < 16)%nat -> W t = word_be M t) /\
    (forall t, (16 <= t < 80)%nat -> W t = ROTL 1 (xor (xor (xor (W (t - 3)%nat) (W (t - 8)%nat)) (W (t - 14)%nat)) (W (t - 16)%nat))) /\
    H = [a O; b O; c O; d O; e O] /\
    (forall t, (t < 80)%nat ->
       let T := plus (plus (plus (plus (ROTL 5 (a t)) (f1 t (b t) (c t) (d t))) (e t)) (K1 t)) (W t) in
       e (S t) = d t /\ d (S t) = c t /\ c (S t) = ROTL 30 (b t) /\ b (S t) = a t /\ a (S t) = T) /\
    H' = [plus (a O) (a 80%nat); plus (b O) (b 80%nat); plus (c O) (c 80%nat); plus (d O) (d 80%nat); plus (e O) (e 80%nat)].
Definition SHA1 (msg digest : list Z) : Prop :=
  exists p out, padded (bytes_be 8) msg p /\
    chained compress1 [0x67452301; 0xefcdab89; 0x98badcfe; 0x10325476; 0xc3d2e1f0] p out /\ digest = flat_map (bytes_be 4) out.

(** ** MD5: RFC 1321 section 3.4; [Tsin] is the whole part of 4294967296 times abs(sin(i)), i from 1 *)
Definition Tsin : list Z :=
  [0xd76aa478; 0xe8c7b756; 0x242070db; 0xc1bdceee; 0xf57c0faf; 0x4787c62a; 0xa8304613; 0xfd469501;
   0x698098d8; 0x8b44f7af; 0xffff5bb1; 0x895cd7be; 0x6b901122; 0xfd987193; 0xa679438e; 0x49b40821;
   0xf61e2562; 0xc040b340; 0x265e5a51; 0xe9b6c7aa; 0xd62f105d; 0x02441453; 0xd8a1e681; 0xe7d3fbc8;
   0x21e1cde6; 0xc33707d6; 0xf4d50d87; 0x455a14ed; 0xa9e3e905; 0xfcefa3f8; 0x676f02d9; 0x8d2a4c8a;
   0xfffa3942; 0x8771f681; 0x6d9d6122; 0xfde5380c; 0xa4beea44; 0x4bdecfa9; 0xf6bb4b60; 0xbebfbc70;
   0x289b7ec6; 0xeaa127fa; 0xd4ef3085; 0x04881d05; 0xd9d4d039; 0xe6db99e5; 0x1fa27cf8; 0xc4ac5665;
   0xf4292244; 0x432aff97; 0xab9423a7; 0xfc93a039; 0x655b59c3; 0x8f0ccc92; 0xffeff47d; 0x85845dd1;
   0x6fa87e4f; 0xfe2ce6e0; 0xa3014314; 0x4e0811a1; 0xf7537e82; 0xbd3af235; 0x2ad7d2bb; 0xeb86d391].
Definition F5 (t : nat) (x y z : Z) : Z :=
  if (t <? 16)%nat then Z.lor (Z.land x y) (Z.land (neg x) z)
  else if (t <? 32)%nat then Z.lor (Z.land x z) (Z.land y (neg z))
  else if (t <? 48)%nat then xor (xor x y) z else xor y (Z.lor x (neg z)).
Definition k5 (t : nat) : nat := ((if t <? 16 then t else if t <? 32 then 1 + 5 * t else if t <? 48 then 5 + 3 * t else 7 * t) mod 16)%nat.
Definition shift5 (t : nat) : Z :=
  nth (t mod 4) (if (t <? 16)%nat then [7; 12; 17; 22] else if (t <? 32)%nat then [5; 9; 14; 20] else if (t <? 48)%nat then [4; 11; 16; 23] else [6; 10; 15; 21]) 0.
Definition compress5 (H M H' : list Z) : Prop :=
  exists a b c d : nat -> Z,
    H = [a O; b O; c O; d O] /\
    (forall t, (t < 64)%nat ->
       a (S t) = d t /\ d (S t) = c t /\ c (S t) = b t /\
       b (S t) = plus (b t) (ROTL (shift5 t) (plus (plus (plus (a t) (F5 t (b t) (c t) (d t))) (word_le M (k5 t))) (nth t Tsin 0)))) /\
    H' = [plus (a O) (a 64%nat); plus (b O) (b 64%nat); plus (c O) (c 64%nat); plus (d O) (d 64%nat)].
Definition MD5 (msg digest : list Z) : Prop :=
  exists p out, padded (bytes_le 8) msg p /\
    chained compress5 [0x67452301; 0xefcdab89; 0x98badcfe; 0x10325476] p out /\ digest = flat_map (bytes_le 4) out.

(** ** HMAC (RFC 2104) over a hash function with blocks of 64 bytes, and PBKDF2 (RFC 8018 section 5.2) *)
Definition xor_byte (c : Z) (l : list Z) : list Z := map (fun b => xor b c) l.
Definition HMAC (Hash : list Z -> list Z -> Prop) (key text mac : list Z) : Prop :=
  exists k0 inner,
    (if len key <=? 64 then k0 = key else Hash key k0) /\
    let k := k0 ++ repeat 0 (64 - length k0) in
    Hash (xor_byte 0x36 k ++ text) inner /\ Hash (xor_byte 0x5c k ++ inner) mac.
(** [T] is block [i] of the output: the exclusive or of [c] chained values, byte by byte. *)
Definition pbkdf2_block (PRF : list Z -> list Z -> Prop) (salt : list Z) (c : nat) (i : Z) (T : list Z) : Prop :=
  exists U : nat -> list Z,
    PRF (salt ++ bytes_be 4 i) (U 1%nat) /\ (forall j, (1 <= j < c)%nat -> PRF (U j) (U (S j))) /\
    length T = length (U 1%nat) /\
    forall n, nth n T 0 = fold_left xor (map (fun j => nth n (U j) 0) (seq 1 c)) 0.
Definition PBKDF2 (Hash : list Z -> list Z -> Prop) (password salt : list Z) (c : nat) (dkLen : Z) (dk : list Z) : Prop :=
  exists T : nat -> list Z,
    (forall i, pbkdf2_block (HMAC Hash password) salt c (Z.of_nat i + 1) (T i)) /\
    len dk = dkLen /\ exists n, dk = firstn (Z.to_nat dkLen) (flat_map T (seq 0 n)).

(** ** Checksums *)
(** Polynomials over the field with two elements, as numbers: the product, without carries, of a polynomial of [n] terms with another. *)
Fixpoint pmul (n : nat) (a b : Z) : Z :=
  match n with O => 0 | S m => xor (pmul m a b) (if Z.testbit a (Z.of_nat m) then b * 2 ^ Z.of_nat m else 0) end.
(** [r] is the remainder of the division of [a] by [g], of degree [d]. *)
Definition pmod (a g d r : Z) : Prop := 0 <= r < 2 ^ d /\ exists n q, a = xor (pmul n q g) r.
Fixpoint number (msg : list Z) : Z := match msg with [] => 0 | x :: t => x * 256 ^ len t + number t end.
(** [s] is [r] with its [n] bits in the opposite order. *)
Definition reversed (n r s : Z) : Prop := 0 <= s < 2 ^ n /\ forall i, 0 <= i < n -> Z.testbit s i = Z.testbit r (n - 1 - i).
(** CRC-64 with polynomial 0x42f0e1eba9ea3693; CRC-32 of zip and ethernet: bits of a byte taken least significant first, all ones before and after. *)
Definition CRC64 (msg : list Z) (crc : Z) : Prop := pmod (number msg * 2 ^ 64) 0x142f0e1eba9ea3693 64 crc.
Definition CRC32 (msg : list Z) (crc : Z) : Prop :=
  exists m r, length m = length msg /\ (forall i, (i < length msg)%nat -> reversed 8 (nth i msg 0) (nth i m 0)) /\
    pmod (xor (number m * 2 ^ 32) ((2 ^ 32 - 1) * 256 ^ len msg)) 0x104c11db7 32 r /\ reversed 32 (neg crc) r /\ 0 <= crc < 2 ^ 32.
Definition sum (l : list Z) : Z := fold_right Z.add 0 l.
(** RFC 1950: s1 is 1 plus the sum of the bytes, s2 the sum of the values of s1, both modulo 65521; s2 above s1. *)
Definition ADLER32 (msg : list Z) : Z :=
  (sum (map (fun i => 1 + sum (firstn i msg)) (seq 1 (length msg))) mod 65521) * 65536 + (1 + sum msg) mod 65521.
(** Two messages that differ in one byte. *)
Definition one_byte_apart (m m' : list Z) : Prop := exists a x y b, m = a ++ x :: b /\ m' = a ++ y :: b /\ x <> y.

(** ** RC4: [K] and [j] are the state and the index while the key is mixed in, [P] and [k] while bytes are produced *)
Definition swapped (f g : Z -> Z) (i j : Z) : Prop := g i = f j /\ g j = f i /\ forall x, 0 <= x < 256 -> x <> i -> x <> j -> g x = f x.
Definition RC4 (key data out : list Z) : Prop :=
  exists (K : nat -> Z -> Z) (j : nat -> Z) (P : nat -> Z -> Z) (k : nat -> Z),
    (forall x, 0 <= x < 256 -> K O x = x) /\ j O = 0 /\
    (forall i, (i < 256)%nat ->
       j (S i) = (j i + K i (Z.of_nat i) + nth (i mod length key) key 0) mod 256 /\ swapped (K i) (K (S i)) (Z.of_nat i) (j (S i))) /\
    P O = K 256%nat /\ k O = 0 /\ length out = length data /\
    forall t, (t < length data)%nat ->
      let i := Z.of_nat (S t) mod 256 in
      k (S t) = (k t + P t i) mod 256 /\ swapped (P t) (P (S t)) i (k (S t)) /\
      nth t out 0 = xor (nth t data 0) (P (S t) ((P (S t) i + P (S t) (k (S t))) mod 256)).
