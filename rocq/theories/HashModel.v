(** lib/std/hash: SHA-256, SHA-1, MD5, HMAC, PBKDF2, CRC-32, CRC-64, Adler-32 and FNV-1a, and lib/std/crypto/rc4.c3.
    A `char` is an integer in [0, 256), a `uint` one in [0, 2^32), a `ulong` or `usz` one in [0, 2^64); sums, products and left shifts wrap.
    [Oob] is an index or slice outside its array.  Simplifications: little-endian machine (bitcast and union layout);
    the clearing of memory after use is only modelled where it can be seen again (the buffer of SHA-256). *)
From Coq Require Import ZArith Bool List.
From Verif Require Import Mach.
Import ListNotations.
Open Scope Z_scope.

Definition u32 (x : Z) : Z := x mod 2 ^ 32.
Definition u64 (x : Z) : Z := x mod 2 ^ 64.
Definition add32 (x y : Z) : Z := u32 (x + y).
Definition not32 (x : Z) : Z := u32 (Z.lnot x).
Definition shl32 (x n : Z) : Z := u32 (Z.shiftl x n).
Definition at_ (l : list Z) (i : Z) : Z := nth (Z.to_nat i) l 0.
(** [a[i:n]], and [a[i:d.len] = d[..]]. *)
Definition sub (a : list Z) (i n : Z) : Res (list Z) :=
  if (0 <=? i) && (0 <=? n) && (i + n <=? zlen a) then Ok (firstn (Z.to_nat n) (skipn (Z.to_nat i) a)) else Oob.
Definition put (a : list Z) (i : Z) (d : list Z) : Res (list Z) :=
  if (0 <=? i) && (i + zlen d <=? zlen a) then Ok (firstn (Z.to_nat i) a ++ d ++ skipn (Z.to_nat (i + zlen d)) a) else Oob.
Definition zeros (n : Z) : list Z := repeat 0 (Z.to_nat n).

(** ** sha256.c3 *)
(** sha256.c3:8-17: [K]. *)
Definition K256 : list Z :=
  [1116352408; 1899447441; 3049323471; 3921009573; 961987163; 1508970993; 2453635748; 2870763221;
   3624381080; 310598401; 607225278; 1426881987; 1925078388; 2162078206; 2614888103; 3248222580;
   3835390401; 4022224774; 264347078; 604807628; 770255983; 1249150122; 1555081692; 1996064986;
   2554220882; 2821834349; 2952996808; 3210313671; 3336571891; 3584528711; 113926993; 338241895;
   666307205; 773529912; 1294757372; 1396182291; 1695183700; 1986661051; 2177026350; 2456956037;
   2730485921; 2820302411; 3259730800; 3345764771; 3516065817; 3600352804; 4094571909; 275423344;
   430227734; 506948616; 659060556; 883997877; 958139571; 1322822218; 1537002063; 1747873779;
   1955562222; 2024104815; 2227730452; 2361852424; 2428436474; 2756734187; 3204031479; 3329325298].
(** sha256.c3:19-28: the macros [@rotr], [@ch], [@maj], [@_sigma0], [@_sigma1], [@sigma0], [@sigma1]. *)
Definition rotr (x n : Z) : Z := Z.lor (Z.shiftr x n) (shl32 x (32 - n)).
Definition ch (x y z : Z) : Z := Z.lxor (Z.land x y) (Z.land (not32 x) z).
Definition maj (x y z : Z) : Z := Z.lxor (Z.lxor (Z.land x y) (Z.land x z)) (Z.land y z).
Definition bsigma0 (x : Z) : Z := Z.lxor (Z.lxor (rotr x 2) (rotr x 13)) (rotr x 22).
Definition bsigma1 (x : Z) : Z := Z.lxor (Z.lxor (rotr x 6) (rotr x 11)) (rotr x 25).
Definition sigma0 (x : Z) : Z := Z.lxor (Z.lxor (rotr x 7) (rotr x 18)) (Z.shiftr x 3).
Definition sigma1 (x : Z) : Z := Z.lxor (Z.lxor (rotr x 17) (rotr x 19)) (Z.shiftr x 10).
(** sha256.c3:127-176: [sha256_transform]; the working variables a to h are a tuple. *)
Definition regs8 : Type := (Z * Z * Z * Z * Z * Z * Z * Z)%type.
Definition load_be (buffer : list Z) (i : Z) : Z :=
  Z.lor (Z.lor (Z.lor (shl32 (at_ buffer (i * 4)) 24) (shl32 (at_ buffer (i * 4 + 1)) 16)) (shl32 (at_ buffer (i * 4 + 2)) 8)) (at_ buffer (i * 4 + 3)).
Definition upto (from : nat) (n : nat) : list Z := map Z.of_nat (seq from n).
Definition schedule256 (buffer : list Z) : list Z :=
  fold_left (fun m i => m ++ [add32 (add32 (add32 (sigma1 (at_ m (i - 2))) (at_ m (i - 7))) (sigma0 (at_ m (i - 15)))) (at_ m (i - 16))])
    (upto 16 48) (map (load_be buffer) (upto 0 16)).
Definition round256 (m : list Z) (r : regs8) (i : Z) : regs8 :=
  let '(a, b, c, d, e, f, g, h) := r in
  let t1 := add32 (add32 (add32 (add32 h (bsigma1 e)) (ch e f g)) (at_ K256 i)) (at_ m i) in
  let t2 := add32 (bsigma0 a) (maj a b c) in
  (add32 t1 t2, a, b, c, add32 d t1, e, f, g).
Definition transform256 (st : regs8) (buffer : list Z) : regs8 :=
  let '(a, b, c, d, e, f, g, h) := fold_left (round256 (schedule256 buffer)) (upto 0 64) st in
  let '(a0, b0, c0, d0, e0, f0, g0, h0) := st in
  (add32 a0 a, add32 b0 b, add32 c0 c, add32 d0 d, add32 e0 e, add32 f0 f, add32 g0 g, add32 h0 h).
(** sha256.c3:30-35, 49-64: [Sha256] and [Sha256.init]. *)
Record sha256 := S256 { state256 : regs8; bitcount : Z; buffer256 : list Z }.
Definition init256 : sha256 :=
  S256 (1779033703, 3144134277, 1013904242, 2773480762, 1359893119, 2600822924, 528734635, 1541459225) 0 (zeros 64).
(** sha256.c3:70-83: [Sha256.update]; the transformation clears the buffer (175). *)
Fixpoint bytes256 (data : list Z) (st : regs8) (buffer : list Z) (pos : Z) : Res (regs8 * list Z) :=
  match data with
  | [] => Ok (st, buffer)
  | x :: t => buffer <- set buffer pos x ;;
              if pos + 1 =? 64 then bytes256 t (transform256 st buffer) (zeros 64) 0 else bytes256 t st buffer (pos + 1)
  end.
Definition update256 (s : sha256) (data : list Z) : Res sha256 :=
  let len := u32 (zlen data) in
  let pos := u32 (bitcount s / 8) mod 64 in
  '(st, buffer) <- bytes256 data (state256 s) (buffer256 s) pos ;;
  Ok (S256 st (u64 (bitcount s + u32 (len * 8))) buffer).
(** sha256.c3:85-121: [Sha256.final]. *)
Definition be_out (x : Z) : list Z := [Z.land (Z.shiftr x 24) 255; Z.land (Z.shiftr x 16) 255; Z.land (Z.shiftr x 8) 255; Z.land x 255].
Definition final256 (s : sha256) : Res (list Z) :=
  let i := (bitcount s / 8) mod 64 in
  buffer <- set (buffer256 s) i 128 ;;
  let i := i + 1 in
  '(st, buffer, i) <- (if 56 <? i then buffer <- put buffer i (zeros (64 - i)) ;; Ok (transform256 (state256 s) buffer, zeros 64, 0) else Ok (state256 s, buffer, i)) ;;
  buffer <- put buffer i (zeros (56 - i)) ;;
  buffer <- put buffer 56 (map (fun j => Z.land (Z.shiftr (bitcount s) (56 - j * 8)) 255) (upto 0 8)) ;;
  Ok (let '(a, b, c, d, e, f, g, h) := transform256 st buffer in
      be_out a ++ be_out b ++ be_out c ++ be_out d ++ be_out e ++ be_out f ++ be_out g ++ be_out h).
(** sha256.c3:41-47: [hash]. *)
Definition hash256 (data : list Z) : Res (list Z) := s <- update256 init256 data ;; final256 s.

(** ** sha1.c3 *)
Definition rotl (x n : Z) : Z := Z.lor (shl32 x n) (Z.shiftr x (32 - n)).
(** sha1.c3:170-249: the 80 calls of [sha1_transform]: the macro, and which of the variables a to e are v, w, x, y and z. *)
Definition calls1 : list (Z * (Z * Z * Z * Z * Z)) :=
  [(0, (0, 1, 2, 3, 4)); (0, (4, 0, 1, 2, 3)); (0, (3, 4, 0, 1, 2)); (0, (2, 3, 4, 0, 1)); (0, (1, 2, 3, 4, 0));
   (0, (0, 1, 2, 3, 4)); (0, (4, 0, 1, 2, 3)); (0, (3, 4, 0, 1, 2)); (0, (2, 3, 4, 0, 1)); (0, (1, 2, 3, 4, 0));
   (0, (0, 1, 2, 3, 4)); (0, (4, 0, 1, 2, 3)); (0, (3, 4, 0, 1, 2)); (0, (2, 3, 4, 0, 1)); (0, (1, 2, 3, 4, 0));
   (0, (0, 1, 2, 3, 4)); (1, (4, 0, 1, 2, 3)); (1, (3, 4, 0, 1, 2)); (1, (2, 3, 4, 0, 1)); (1, (1, 2, 3, 4, 0));
   (2, (0, 1, 2, 3, 4)); (2, (4, 0, 1, 2, 3)); (2, (3, 4, 0, 1, 2)); (2, (2, 3, 4, 0, 1)); (2, (1, 2, 3, 4, 0));
   (2, (0, 1, 2, 3, 4)); (2, (4, 0, 1, 2, 3)); (2, (3, 4, 0, 1, 2)); (2, (2, 3, 4, 0, 1)); (2, (1, 2, 3, 4, 0));
   (2, (0, 1, 2, 3, 4)); (2, (4, 0, 1, 2, 3)); (2, (3, 4, 0, 1, 2)); (2, (2, 3, 4, 0, 1)); (2, (1, 2, 3, 4, 0));
   (2, (0, 1, 2, 3, 4)); (2, (4, 0, 1, 2, 3)); (2, (3, 4, 0, 1, 2)); (2, (2, 3, 4, 0, 1)); (2, (1, 2, 3, 4, 0));
   (3, (0, 1, 2, 3, 4)); (3, (4, 0, 1, 2, 3)); (3, (3, 4, 0, 1, 2)); (3, (2, 3, 4, 0, 1)); (3, (1, 2, 3, 4, 0));
   (3, (0, 1, 2, 3, 4)); (3, (4, 0, 1, 2, 3)); (3, (3, 4, 0, 1, 2)); (3, (2, 3, 4, 0, 1)); (3, (1, 2, 3, 4, 0));
   (3, (0, 1, 2, 3, 4)); (3, (4, 0, 1, 2, 3)); (3, (3, 4, 0, 1, 2)); (3, (2, 3, 4, 0, 1)); (3, (1, 2, 3, 4, 0));
   (3, (0, 1, 2, 3, 4)); (3, (4, 0, 1, 2, 3)); (3, (3, 4, 0, 1, 2)); (3, (2, 3, 4, 0, 1)); (3, (1, 2, 3, 4, 0));
   (4, (0, 1, 2, 3, 4)); (4, (4, 0, 1, 2, 3)); (4, (3, 4, 0, 1, 2)); (4, (2, 3, 4, 0, 1)); (4, (1, 2, 3, 4, 0));
   (4, (0, 1, 2, 3, 4)); (4, (4, 0, 1, 2, 3)); (4, (3, 4, 0, 1, 2)); (4, (2, 3, 4, 0, 1)); (4, (1, 2, 3, 4, 0));
   (4, (0, 1, 2, 3, 4)); (4, (4, 0, 1, 2, 3)); (4, (3, 4, 0, 1, 2)); (4, (2, 3, 4, 0, 1)); (4, (1, 2, 3, 4, 0));
   (4, (0, 1, 2, 3, 4)); (4, (4, 0, 1, 2, 3)); (4, (3, 4, 0, 1, 2)); (4, (2, 3, 4, 0, 1)); (4, (1, 2, 3, 4, 0))].
(** sha1.c3:106-120: [blk], [blk0], on the 16 words of the block; they return the block and the word stored. *)
Definition blk (block : list Z) (i : Z) : list Z * Z :=
  let w := rotl (Z.lxor (Z.lxor (Z.lxor (at_ block (Z.land (i + 13) 15)) (at_ block (Z.land (i + 8) 15))) (at_ block (Z.land (i + 2) 15))) (at_ block (Z.land i 15))) 1 in
  (upd block (Z.to_nat (Z.land i 15)) w, w).
Definition blk0 (block : list Z) (i : Z) : list Z * Z :=
  let w := Z.lor (Z.land (rotl (at_ block i) 24) 4278255360) (Z.land (rotl (at_ block i) 8) 16711935) in
  (upd block (Z.to_nat i) w, w).
(** sha1.c3:122-155: [r0] to [r4]. *)
Definition mix1 (kind w x y : Z) : Z :=
  if kind <? 2 then Z.lxor (Z.land w (Z.lxor x y)) y
  else if kind =? 3 then Z.lor (Z.land (Z.lor w x) y) (Z.land w x) else Z.lxor (Z.lxor w x) y.
Definition const1 (kind : Z) : Z := if kind <? 2 then 1518500249 else if kind =? 2 then 1859775393 else if kind =? 3 then 2400959708 else 3395469782.
Definition call1 (s : list Z * list Z) (n : Z * (Z * (Z * Z * Z * Z * Z))) : list Z * list Z :=
  let '(regs, block) := s in
  let '(i, (kind, (v, w, x, y, z))) := n in
  let '(block, word) := (if kind =? 0 then blk0 block i else blk block i) in
  let sum := add32 (add32 (add32 (mix1 kind (at_ regs w) (at_ regs x) (at_ regs y)) word) (const1 kind)) (rotl (at_ regs v) 5) in
  let old := at_ regs w in
  let regs := upd regs (Z.to_nat z) (add32 (at_ regs z) sum) in
  (upd regs (Z.to_nat w) (rotl old 30), block).
(** sha1.c3:161-257: [sha1_transform]; the union reads the bytes as little-endian words. *)
Definition load_le (buffer : list Z) (i : Z) : Z :=
  at_ buffer (i * 4) + 2 ^ 8 * at_ buffer (i * 4 + 1) + 2 ^ 16 * at_ buffer (i * 4 + 2) + 2 ^ 24 * at_ buffer (i * 4 + 3).
Definition regs5 : Type := (Z * Z * Z * Z * Z)%type.
Definition transform1 (st : regs5) (buffer : list Z) : regs5 :=
  let block := map (load_le buffer) (upto 0 16) in
  let '(a, b, c, d, e) := st in
  let '(regs, _) := fold_left call1 (combine (upto 0 80) calls1) ([a; b; c; d; e], block) in
  (add32 a (at_ regs 0), add32 b (at_ regs 1), add32 c (at_ regs 2), add32 d (at_ regs 3), add32 e (at_ regs 4)).
(** sha1.c3:14-19, 33-45: [Sha1] and [Sha1.init]. *)
Record sha1 := S1 { state1 : regs5; count0 : Z; count1 : Z; buffer1 : list Z }.
Definition init1 : sha1 := S1 (1732584193, 4023233417, 2562383102, 271733878, 3285377520) 0 0 (zeros 64).
(** sha1.c3:64-67: the whole blocks of the data. *)
Fixpoint whole1 (fuel : nat) (st : regs5) (data : list Z) (len i : Z) : Res (regs5 * Z) :=
  if u32 (i + 63) <? len then
    match fuel with
    | O => Fuel
    | S n => b <- sub data i 64 ;; whole1 n (transform1 st b) data len (u32 (i + 64))
    end
  else Ok (st, i).
(** sha1.c3:51-71: [Sha1.update]. *)
Definition update1 (s : sha1) (data : list Z) : Res sha1 :=
  let len := u32 (zlen data) in
  let c0 := u32 (count0 s + shl32 len 3) in
  let c1 := if c0 <? count0 s then u32 (count1 s + 1) else count1 s in
  let c1 := u32 (c1 + Z.shiftr len 29) in
  let j := Z.land (Z.shiftr (count0 s) 3) 63 in
  '(st, buffer, i, j) <-
    (if 63 <? u32 (j + len) then
       let i := 64 - j in
       d <- sub data 0 i ;;
       buffer <- put (buffer1 s) j d ;;
       '(st, i) <- whole1 (length data) (transform1 (state1 s) buffer) data len i ;;
       Ok (st, buffer, i, 0)
     else Ok (state1 s, buffer1 s, 0, j)) ;;
  d <- sub data i (u32 (len - i)) ;;
  buffer <- put buffer j d ;;
  Ok (S1 st c0 c1 buffer).
(** sha1.c3:82-85: the zeros of the padding. *)
Fixpoint pad1 (fuel : nat) (s : sha1) : Res sha1 :=
  if Z.land (count0 s) 504 =? 448 then Ok s else
  match fuel with O => Fuel | S n => s <- update1 s [0] ;; pad1 n s end.
(** sha1.c3:74-98: [Sha1.final]. *)
Definition final1 (s : sha1) : Res (list Z) :=
  let finalcount := map (fun i => Z.land (Z.shiftr (if 4 <=? i then count0 s else count1 s) ((3 - Z.land i 3) * 8)) 255) (upto 0 8) in
  s <- update1 s [128] ;;
  s <- pad1 64 s ;;
  s <- update1 s finalcount ;;
  Ok (let '(a, b, c, d, e) := state1 s in
      map (fun i => Z.land (Z.shiftr (at_ [a; b; c; d; e] (Z.shiftr i 2)) ((3 - Z.land i 3) * 8)) 255) (upto 0 20)).
(** sha1.c3:25-31: [hash]. *)
Definition hash1 (data : list Z) : Res (list Z) := s <- update1 init1 data ;; final1 s.

(** ** md5.c3 *)
(** md5.c3:135-205: the 64 calls of [@step]: the macro, which of the variables a to d are a, b, c and d, n, t and s. *)
Definition calls5 : list (Z * (Z * Z * Z * Z) * Z * Z * Z) :=
  [(0, (0, 1, 2, 3), 0, 3614090360, 7); (0, (3, 0, 1, 2), 1, 3905402710, 12); (0, (2, 3, 0, 1), 2, 606105819, 17); (0, (1, 2, 3, 0), 3, 3250441966, 22);
   (0, (0, 1, 2, 3), 4, 4118548399, 7); (0, (3, 0, 1, 2), 5, 1200080426, 12); (0, (2, 3, 0, 1), 6, 2821735955, 17); (0, (1, 2, 3, 0), 7, 4249261313, 22);
   (0, (0, 1, 2, 3), 8, 1770035416, 7); (0, (3, 0, 1, 2), 9, 2336552879, 12); (0, (2, 3, 0, 1), 10, 4294925233, 17); (0, (1, 2, 3, 0), 11, 2304563134, 22);
   (0, (0, 1, 2, 3), 12, 1804603682, 7); (0, (3, 0, 1, 2), 13, 4254626195, 12); (0, (2, 3, 0, 1), 14, 2792965006, 17); (0, (1, 2, 3, 0), 15, 1236535329, 22);
   (1, (0, 1, 2, 3), 1, 4129170786, 5); (1, (3, 0, 1, 2), 6, 3225465664, 9); (1, (2, 3, 0, 1), 11, 643717713, 14); (1, (1, 2, 3, 0), 0, 3921069994, 20);
   (1, (0, 1, 2, 3), 5, 3593408605, 5); (1, (3, 0, 1, 2), 10, 38016083, 9); (1, (2, 3, 0, 1), 15, 3634488961, 14); (1, (1, 2, 3, 0), 4, 3889429448, 20);
   (1, (0, 1, 2, 3), 9, 568446438, 5); (1, (3, 0, 1, 2), 14, 3275163606, 9); (1, (2, 3, 0, 1), 3, 4107603335, 14); (1, (1, 2, 3, 0), 8, 1163531501, 20);
   (1, (0, 1, 2, 3), 13, 2850285829, 5); (1, (3, 0, 1, 2), 2, 4243563512, 9); (1, (2, 3, 0, 1), 7, 1735328473, 14); (1, (1, 2, 3, 0), 12, 2368359562, 20);
   (2, (0, 1, 2, 3), 5, 4294588738, 4); (3, (3, 0, 1, 2), 8, 2272392833, 11); (2, (2, 3, 0, 1), 11, 1839030562, 16); (3, (1, 2, 3, 0), 14, 4259657740, 23);
   (2, (0, 1, 2, 3), 1, 2763975236, 4); (3, (3, 0, 1, 2), 4, 1272893353, 11); (2, (2, 3, 0, 1), 7, 4139469664, 16); (3, (1, 2, 3, 0), 10, 3200236656, 23);
   (2, (0, 1, 2, 3), 13, 681279174, 4); (3, (3, 0, 1, 2), 0, 3936430074, 11); (2, (2, 3, 0, 1), 3, 3572445317, 16); (3, (1, 2, 3, 0), 6, 76029189, 23);
   (2, (0, 1, 2, 3), 9, 3654602809, 4); (3, (3, 0, 1, 2), 12, 3873151461, 11); (2, (2, 3, 0, 1), 15, 530742520, 16); (3, (1, 2, 3, 0), 2, 3299628645, 23);
   (4, (0, 1, 2, 3), 0, 4096336452, 6); (4, (3, 0, 1, 2), 7, 1126891415, 10); (4, (2, 3, 0, 1), 14, 2878612391, 15); (4, (1, 2, 3, 0), 5, 4237533241, 21);
   (4, (0, 1, 2, 3), 12, 1700485571, 6); (4, (3, 0, 1, 2), 3, 2399980690, 10); (4, (2, 3, 0, 1), 10, 4293915773, 15); (4, (1, 2, 3, 0), 1, 2240044497, 21);
   (4, (0, 1, 2, 3), 8, 1873313359, 6); (4, (3, 0, 1, 2), 15, 4264355552, 10); (4, (2, 3, 0, 1), 6, 2734768916, 15); (4, (1, 2, 3, 0), 13, 1309151649, 21);
   (4, (0, 1, 2, 3), 4, 4149444226, 6); (4, (3, 0, 1, 2), 11, 3174756917, 10); (4, (2, 3, 0, 1), 2, 718787259, 15); (4, (1, 2, 3, 0), 9, 3951481745, 21)].
(** md5.c3:103-107: [@f], [@g], [@h], [@h2] and [@i]. *)
Definition mix5 (f x y z : Z) : Z :=
  if f =? 0 then Z.lxor z (Z.land x (Z.lxor y z))
  else if f =? 1 then Z.lxor y (Z.land z (Z.lxor x y))
  else if f =? 2 then Z.lxor (Z.lxor x y) z
  else if f =? 3 then Z.lxor x (Z.lxor y z)
  else Z.lxor y (Z.lor x (not32 z)).
(** md5.c3:109-114: [@step]. *)
Definition step5 (ptr : list Z) (regs : list Z) (c : Z * (Z * Z * Z * Z) * Z * Z * Z) : list Z :=
  let '(f, (ra, rb, rc, rd), n, t, s) := c in
  let a := add32 (at_ regs ra) (add32 (add32 (mix5 f (at_ regs rb) (at_ regs rc) (at_ regs rd)) (load_le ptr n)) t) in
  let a := Z.lor (shl32 a s) (Z.shiftr (Z.land a 4294967295) (32 - s)) in
  upd regs (Z.to_nat ra) (add32 a (at_ regs rb)).
(** md5.c3:130-210: [body], one turn of the loop. *)
Definition regs4 : Type := (Z * Z * Z * Z)%type.
Definition turn5 (st : regs4) (ptr : list Z) : regs4 :=
  let '(a, b, c, d) := st in
  let regs := fold_left (step5 ptr) calls5 [a; b; c; d] in
  (add32 (at_ regs 0) a, add32 (at_ regs 1) b, add32 (at_ regs 2) c, add32 (at_ regs 3) d).
(** md5.c3:117-222: the loop of [body] over [size] bytes, [turns] the turns left after this one; the result is the state and what is left of the data. *)
Fixpoint body5 (turns : nat) (st : regs4) (data : list Z) : Res (regs4 * list Z) :=
  b <- sub data 0 64 ;;
  let st := turn5 st b in
  let data := skipn 64 data in
  match turns with O => Ok (st, data) | S n => body5 n st data end.
(** md5.c3:8-14, 28-37: [Md5] and [Md5.init], which leaves the buffer as it was; the field [block] is never used. *)
Record md5 := M5 { lo : Z; hi : Z; state5 : regs4; buffer5 : list Z }.
Definition init5 (s : md5) : md5 := M5 0 0 (1732584193, 4023233417, 2562383102, 271733878) (buffer5 s).
(** md5.c3:40-67: [Md5.update]. *)
Definition update5 (s : md5) (data : list Z) : Res md5 :=
  let len := zlen data in
  let lo' := Z.land (u64 (lo s + len)) 536870911 in
  let hi' := if lo' <? lo s then u32 (hi s + 1) else hi s in
  let hi' := u32 (hi' + Z.shiftr len 29) in
  let used := Z.land (lo s) 63 in
  let rest (st : regs4) (buffer data : list Z) :=
    '(st, data) <- (if 64 <=? zlen data then
                      '(st, p) <- body5 (Z.to_nat (Z.shiftr (zlen data) 6) - 1) st data ;;
                      d <- sub p 0 (Z.land (zlen data) 63) ;; Ok (st, d)
                    else Ok (st, data)) ;;
    buffer <- put buffer 0 data ;;
    Ok (M5 lo' hi' st buffer) in
  if used =? 0 then rest (state5 s) (buffer5 s) data else
  let available := 64 - used in
  if len <? available then buffer <- put (buffer5 s) used data ;; Ok (M5 lo' hi' (state5 s) buffer) else
  d <- sub data 0 available ;;
  buffer <- put (buffer5 s) used d ;;
  '(st, _) <- body5 0 (state5 s) buffer ;;
  rest st buffer (skipn (Z.to_nat available) data).
(** md5.c3:69-98: [Md5.final]. *)
Definition le_out (x : Z) : list Z := [x mod 2 ^ 8; (x / 2 ^ 8) mod 2 ^ 8; (x / 2 ^ 16) mod 2 ^ 8; (x / 2 ^ 24) mod 2 ^ 8].
Definition final5 (s : md5) : Res (list Z) :=
  let used := Z.land (lo s) 63 in
  buffer <- set (buffer5 s) used 128 ;;
  let used := used + 1 in
  let available := 64 - used in
  '(st, buffer, used, available) <-
    (if available <? 8 then buffer <- put buffer used (zeros available) ;; '(st, _) <- body5 0 (state5 s) buffer ;; Ok (st, buffer, 0, 64)
     else Ok (state5 s, buffer, used, available)) ;;
  buffer <- put buffer used (zeros (available - 8)) ;;
  let lo' := shl32 (lo s) 3 in
  buffer <- put buffer 56 (le_out lo') ;;
  buffer <- put buffer 60 (le_out (hi s)) ;;
  '(st, _) <- body5 0 st buffer ;;
  Ok (let '(a, b, c, d) := st in le_out a ++ le_out b ++ le_out c ++ le_out d).
(** md5.c3:20-26: [hash]; the state starts out as zeros. *)
Definition zero5 : md5 := M5 0 0 (0, 0, 0, 0) (zeros 64).
Definition hash5 (data : list Z) : Res (list Z) := s <- update5 (init5 zero5) data ;; final5 s.

(** ** hmac.c3, for any of the three algorithms; the block is 64 bytes for all of them *)
Record alg := Alg { hstate : Type; hinit : hstate -> hstate; hupdate : hstate -> list Z -> Res hstate; hfinal : hstate -> Res (list Z); hsize : Z }.
Definition Sha256 : alg := Alg sha256 (fun _ => init256) update256 final256 32.
Definition Sha1 : alg := Alg sha1 (fun _ => init1) update1 final1 20.
Definition Md5 : alg := Alg md5 init5 update5 final5 16.
(** hmac.c3:45-70: [Hmac.init] on a state that holds anything. *)
Definition xor_all (k : Z) (l : list Z) : list Z := map (fun b => Z.lxor b k) l.
Definition hmac_init (A : alg) (h : hstate A * hstate A) (key : list Z) : Res (hstate A * hstate A) :=
  '(ha, buffer) <- (if 64 <? zlen key then
                      a <- hupdate A (hinit A (fst h)) key ;; d <- hfinal A a ;; b <- put (zeros 64) 0 d ;; Ok (a, b)
                    else b <- put (zeros 64) 0 key ;; Ok (fst h, b)) ;;
  let buffer := xor_all 54 buffer in
  a <- hupdate A (hinit A ha) buffer ;;
  let buffer := xor_all (Z.lxor 54 92) buffer in
  b <- hupdate A (hinit A (snd h)) buffer ;;
  Ok (a, b).
(** hmac.c3:72-81: [Hmac.update], [Hmac.final]. *)
Definition hmac_update (A : alg) (h : hstate A * hstate A) (data : list Z) : Res (hstate A * hstate A) :=
  a <- hupdate A (fst h) data ;; Ok (a, snd h).
Definition hmac_final (A : alg) (h : hstate A * hstate A) : Res (list Z) :=
  d <- hfinal A (fst h) ;; b <- hupdate A (snd h) d ;; hfinal A b.
(** hmac.c3:9-15: [hash]; [h] is what the memory of the uninitialised variable holds. *)
Definition hmac (A : alg) (h : hstate A * hstate A) (key message : list Z) : Res (list Z) :=
  h <- hmac_init A h key ;; h <- hmac_update A h message ;; hmac_final A h.
(** hmac.c3:97-106: the loop of [@derive]; [it] is an int, compared with a uint by value. *)
Definition s32 (x : Z) : Z := (x + 2 ^ 31) mod 2 ^ 32 - 2 ^ 31.
Fixpoint derive_loop (A : alg) (fuel : nat) (start : hstate A * hstate A) (iterations it : Z) (tmp out : list Z) : Res (list Z) :=
  if it <? iterations then
    match fuel with
    | O => Fuel
    | S n => h <- hmac_update A start tmp ;; tmp <- hmac_final A h ;;
             derive_loop A n start iterations (s32 (it + 1)) tmp (map (fun p => Z.lxor (fst p) (snd p)) (combine out tmp))
    end
  else Ok out.
(** hmac.c3:86-107: [@derive], the output as a list. *)
Definition derive (A : alg) (fuel : nat) (start : hstate A * hstate A) (salt : list Z) (iterations index : Z) : Res (list Z) :=
  h <- hmac_update A start salt ;;
  h <- hmac_update A h (be_out (u32 index)) ;;
  tmp <- hmac_final A h ;;
  derive_loop A fuel start iterations 1 tmp tmp.
(** hmac.c3:30-34: the [n] whole blocks of [pbkdf2] from index [i]. *)
Fixpoint pbkdf2_loop (A : alg) (fuel n : nat) (start : hstate A * hstate A) (salt : list Z) (iterations i : Z) : Res (list Z) :=
  match n with
  | O => Ok []
  | S m => t <- derive A fuel start salt iterations i ;; r <- pbkdf2_loop A fuel m start salt iterations (i + 1) ;; Ok (t ++ r)
  end.
(** hmac.c3:21-43: [pbkdf2]; what is written to the output of [outlen] bytes; [h] is the zeroed variable. *)
Definition pbkdf2 (A : alg) (fuel : nat) (h : hstate A * hstate A) (pw salt : list Z) (iterations outlen : Z) : Res (list Z) :=
  let l := outlen / hsize A in
  let r := outlen mod hsize A in
  start <- hmac_init A h pw ;;
  whole <- pbkdf2_loop A fuel (Z.to_nat l) start salt iterations 1 ;;
  if 0 <? r then t <- derive A fuel start salt iterations (l + 1) ;; d <- sub t 0 r ;; Ok (whole ++ d) else Ok whole.

(** ** crc32.c3 *)
(** crc32.c3:46-111: [CRC32_TABLE]. *)
Definition CRC32_TABLE : list Z :=
  [0; 1996959894; 3993919788; 2567524794; 124634137; 1886057615; 3915621685; 2657392035;
   249268274; 2044508324; 3772115230; 2547177864; 162941995; 2125561021; 3887607047; 2428444049;
   498536548; 1789927666; 4089016648; 2227061214; 450548861; 1843258603; 4107580753; 2211677639;
   325883990; 1684777152; 4251122042; 2321926636; 335633487; 1661365465; 4195302755; 2366115317;
   997073096; 1281953886; 3579855332; 2724688242; 1006888145; 1258607687; 3524101629; 2768942443;
   901097722; 1119000684; 3686517206; 2898065728; 853044451; 1172266101; 3705015759; 2882616665;
   651767980; 1373503546; 3369554304; 3218104598; 565507253; 1454621731; 3485111705; 3099436303;
   671266974; 1594198024; 3322730930; 2970347812; 795835527; 1483230225; 3244367275; 3060149565;
   1994146192; 31158534; 2563907772; 4023717930; 1907459465; 112637215; 2680153253; 3904427059;
   2013776290; 251722036; 2517215374; 3775830040; 2137656763; 141376813; 2439277719; 3865271297;
   1802195444; 476864866; 2238001368; 4066508878; 1812370925; 453092731; 2181625025; 4111451223;
   1706088902; 314042704; 2344532202; 4240017532; 1658658271; 366619977; 2362670323; 4224994405;
   1303535960; 984961486; 2747007092; 3569037538; 1256170817; 1037604311; 2765210733; 3554079995;
   1131014506; 879679996; 2909243462; 3663771856; 1141124467; 855842277; 2852801631; 3708648649;
   1342533948; 654459306; 3188396048; 3373015174; 1466479909; 544179635; 3110523913; 3462522015;
   1591671054; 702138776; 2966460450; 3352799412; 1504918807; 783551873; 3082640443; 3233442989;
   3988292384; 2596254646; 62317068; 1957810842; 3939845945; 2647816111; 81470997; 1943803523;
   3814918930; 2489596804; 225274430; 2053790376; 3826175755; 2466906013; 167816743; 2097651377;
   4027552580; 2265490386; 503444072; 1762050814; 4150417245; 2154129355; 426522225; 1852507879;
   4275313526; 2312317920; 282753626; 1742555852; 4189708143; 2394877945; 397917763; 1622183637;
   3604390888; 2714866558; 953729732; 1340076626; 3518719985; 2797360999; 1068828381; 1219638859;
   3624741850; 2936675148; 906185462; 1090812512; 3747672003; 2825379669; 829329135; 1181335161;
   3412177804; 3160834842; 628085408; 1382605366; 3423369109; 3138078467; 570562233; 1426400815;
   3317316542; 2998733608; 733239954; 1555261956; 3268935591; 3050360625; 752459403; 1541320221;
   2607071920; 3965973030; 1969922972; 40735498; 2617837225; 3943577151; 1913087877; 83908371;
   2512341634; 3803740692; 2075208622; 213261112; 2463272603; 3855990285; 2094854071; 198958881;
   2262029012; 4057260610; 1759359992; 534414190; 2176718541; 4139329115; 1873836001; 414664567;
   2282248934; 4279200368; 1711684554; 285281116; 2405801727; 4167216745; 1634467795; 376229701;
   2685067896; 3608007406; 1308918612; 956543938; 2808555105; 3495958263; 1231636301; 1047427035;
   2932959818; 3654703836; 1088359270; 936918000; 2847714899; 3736837829; 1202900863; 817233897;
   3183342108; 3401237130; 1404277552; 615818150; 3134207493; 3453421203; 1423857449; 601450431;
   3009837614; 3294710456; 1567103746; 711928724; 3020668471; 3272380065; 1510334235; 755167117].
(** crc32.c3:11-44: [Crc32.init], [updatec], [update], [final] and [hash]. *)
Definition crc32_init (seed : Z) : Z := not32 seed.
Definition crc32_updatec (r c : Z) : Z := Z.lxor (Z.shiftr r 8) (at_ CRC32_TABLE (Z.land (Z.lxor r c) 255)).
Definition crc32_update (r : Z) (data : list Z) : Z := fold_left crc32_updatec data r.
Definition crc32_final (r : Z) : Z := not32 r.
Definition crc32_hash (data : list Z) : Z := not32 (fold_left crc32_updatec data (not32 0)).

(** ** crc64.c3 *)
(** crc64.c3:46-112: [CRC64_TABLE]. *)
Definition CRC64_TABLE : list Z :=
  [0; 4823603603198064275; 9647207206396128550; 14344283933443513269;
   5274672035359026399; 847670339082705484; 14759040976900489721; 10241823793177474922;
   10549344070718052798; 15030250704074698541; 1695340678165410968; 6158653484774949387;
   15804726273676621153; 11071337880091427826; 6824194888265062471; 2036903512645398228;
   7367177604490692079; 2651944067726553980; 16419204125234161865; 11613757334439845466;
   3390681356330821936; 7926053118503640995; 12317306969549898774; 16726154088988619397;
   17607865585094646865; 13162708473643690690; 8194994013375312247; 3695931686473304036;
   13648389776530124942; 18417527692557321757; 4073807025290796456; 8825348881154370363;
   14734355208981384158; 10271039580541631821; 5303888135453107960; 822984195088142443;
   9604374506261047041; 14391664176758772114; 47380625301539367; 4780770595170139316;
   6781362712661643872; 2084283301222999283; 15852106237007281990; 11028505464239851989;
   1670654249350217407; 6187869865390245932; 10578560694269006745; 15005564104267687178;
   12269926345859042865; 16768987096479742114; 3433514057002836759; 7878672873577829764;
   16389988026750624494; 11638443477897467005; 7391863372946608072; 2622728278751721819;
   4044590402276644751; 8850035479350698268; 13673076206955870889; 18388311311405091898;
   8147614050581592912; 3738764100714335683; 17650697762308740726; 13115328684529279205;
   15709965168302367023; 11021966344253216700; 6909860770376862729; 2095335087373712026;
   10607776270906215920; 15115916238825782115; 1645968390176284886; 6063892853452478021;
   5216239979862816913; 762004938812542466; 14808413130408695223; 10336584279807992612;
   94761250603078734; 4872975272980325085; 9561541190340278632; 14285852213486374907;
   13562725425323287744; 18359094313119879763; 4168566602445998566; 8874722219015798645;
   17657238303940757535; 13257468400305012364; 8136561383943382329; 3610266854770152362;
   3341308498700434814; 7831293060043656173; 12375739730780491864; 16811819059476047563;
   7452841817450123681; 2710377314828461874; 16324444680414493831; 11564384134825822740;
   1621282580641819377; 6093108618008534114; 10636992411005044695; 15091230119249932612;
   6867028114005673518; 2142715359940571325; 15757345747155659528; 10979133309658045851;
   9518708972583580495; 14333231979791697372; 142141253402664553; 4830142882085382394;
   14783726745893216144; 10365800689136969987; 5245456557503443638; 737318311902463013;
   8089180804553289502; 3653099890976004493; 17700070958701396536; 13210088128275084459;
   4139350461810230209; 8899408340202190162; 13587411233247080167; 18329878549100632180;
   16295228101163185824; 11589070762272702515; 7477528201428671366; 2681160907110034709;
   12328359726370364031; 16854651450907929836; 3384140715920324441; 7783913295349006794;
   17796789492404876493; 12973186262895182430; 8294265019745835499; 3597188614796881784;
   13819721540753725458; 18246723593521770113; 4190670174747424052; 8707887697765516199;
   7249714899603402099; 2768808468102880224; 16248400991498780757; 11785088403942012614;
   3291936780352569772; 8025325358597240639; 12127785706904956042; 16915077318774037017;
   10432479959725633826; 15147713122803500977; 1524009877625084932; 6329456346323069591;
   15705454305770282493; 11170082187107838830; 6635271944638132443; 2226424485906433608;
   189522501206157468; 4634679410803088911; 9745950545960650170; 14245012653811987241;
   5445476407655580739; 676338306971005648; 14876502445374089573; 10124960353263198198;
   4215391513593610003; 8678706776937023872; 13790540925671641653; 18271444552530207910;
   8337133204891997132; 3549843186494580063; 17749444438031597290; 13016054137459951737;
   12170653315997410989; 16867732534171963454; 3244592164593781643; 8068192726900473112;
   16273122767886764658; 11755906975779290337; 7220533709540304724; 2793530071884239303;
   6682616997400869628; 2183556611878603887; 15662586120087312346; 11217427617020813641;
   1553190491096487459; 6304735387851432112; 10407758620342516485; 15176894045242543510;
   14905683634900247362; 10100238751092381137; 5420754629656923748; 705519735670536439;
   9793295161182637981; 14202145287119436046; 146654890503152315; 4682024195942093864;
   3242565161283638754; 7930564333232481137; 12186217236017068228; 17000743249723264599;
   7335380351123765565; 2827240748300537774; 16153640314560107547; 11735716164790313608;
   13734056228011347036; 18188291445129067215; 4285430719881142650; 8757259798139230185;
   17846161249714921603; 13067947420601767440; 8235833358291897765; 3511522545606540086;
   5387043107155988493; 590673871457609374; 14925875833148783915; 10219719885873843128;
   284282506805329106; 4684052045342640705; 9660285764170764788; 14186579979835500391;
   15610694155489642931; 11120709418076880672; 6720936860919424149; 2284857304564388358;
   10490913115006887276; 15233377424362361855; 1474636623804926026; 6234696958930763481;
   16178361609106579004; 11706535215248140463; 7306199781952008986; 2851961734412043657;
   12229085463316509411; 16953397843693241456; 3195220067441434565; 7973432182840617302;
   8278700923620460418; 3464177731752866065; 17798816680404380324; 13110814815472245815;
   4310152537884486493; 8728078392784608718; 13704874997943502459; 18213013024491712744;
   9707630858549910483; 14143712128616820032; 241414281116563189; 4731397450835853414;
   14955056402857342732; 10194998898151653791; 5362321814220069418; 619854820462849209;
   1503817855483314797; 6209975379031176446; 10466191297540353867; 15262558828106308056;
   6768281431840648882; 2241989909157107745; 15567826590698013588; 11168054230320002311].
(** crc64.c3:11-44: [Crc64.init], [updatec], [update] and [hash]; [final] returns the register. *)
Definition crc64_init (seed : Z) : Z := seed.
Definition crc64_updatec (r c : Z) : Z := Z.lxor (u64 (Z.shiftl r 8)) (at_ CRC64_TABLE (Z.land (Z.lxor (Z.shiftr r 56) c) 255)).
Definition crc64_update (r : Z) (data : list Z) : Z := fold_left crc64_updatec data r.
Definition crc64_hash (data : list Z) : Z := fold_left crc64_updatec data 0.

(** ** adler32.c3:7-53: [Adler32.init], [updatec], [update], [final] and [hash] *)
Definition adler_updatec (s : Z * Z) (x : Z) : Z * Z := let a := add32 (fst s) x mod 65521 in (a, add32 (snd s) a mod 65521).
Definition adler_init : Z * Z := (1, 0).
Definition adler_update (s : Z * Z) (data : list Z) : Z * Z := fold_left adler_updatec data s.
Definition adler_final (s : Z * Z) : Z := Z.lor (shl32 (snd s) 16) (fst s).
Definition adler_hash (data : list Z) : Z := adler_final (fold_left adler_updatec data (1, 0)).

(** ** fnv32a.c3:6-41, fnv64a.c3:6-41: [init], [update_char], [update] and [hash] *)
Definition fnv32_init : Z := 2166136261.
Definition fnv32_updatec (h x : Z) : Z := u32 (Z.lxor h x * 16777619).
Definition fnv32_update (h : Z) (data : list Z) : Z := fold_left fnv32_updatec data h.
Definition fnv32_hash (data : list Z) : Z := fold_left fnv32_updatec data 2166136261.
Definition fnv64_init : Z := 14695981039346656037.
Definition fnv64_updatec (h x : Z) : Z := u64 (Z.lxor h x * 1099511628211).
Definition fnv64_update (h : Z) (data : list Z) : Z := fold_left fnv64_updatec data h.
Definition fnv64_hash (data : list Z) : Z := fold_left fnv64_updatec data 14695981039346656037.

(** ** crypto.c3:3-11: [safe_compare] of the first [len] bytes of two memories *)
Fixpoint safe_loop (data1 data2 : list Z) (len : nat) (m : Z) : Res Z :=
  match len with
  | O => Ok m
  | S n => match data1, data2 with x :: s, y :: t => safe_loop s t n (Z.lor m (Z.lxor x y)) | _, _ => Oob end
  end.
Definition safe_compare (data1 data2 : list Z) (len : Z) : Res bool := m <- safe_loop data1 data2 (Z.to_nat len) 0 ;; Ok (m =? 0).

(** ** rc4.c3 *)
Record rc4 := Rc4 { ri : Z; rj : Z; perm : list Z }.
Definition swap (l : list Z) (i j : Z) : list Z := upd (upd l (Z.to_nat i) (at_ l j)) (Z.to_nat j) (at_ l i).
(** rc4.c3:18-29: [Rc4.init]. *)
Definition rc4_key (key : list Z) (s : Z * list Z) (i : Z) : Z * list Z :=
  let j := Z.land (fst s + at_ (snd s) i + at_ key (i mod zlen key)) 255 in (j, swap (snd s) i j).
Definition rc4_init (key : list Z) : rc4 := Rc4 0 0 (snd (fold_left (rc4_key key) (upto 0 256) (0, upto 0 256))).
(** rc4.c3:50-65: [Rc4.crypt]; in and out may be the same memory, as a byte is read before it is written; overlaps at an offset are not modelled. *)
Fixpoint rc4_crypt (s : rc4) (data : list Z) : rc4 * list Z :=
  match data with
  | [] => (s, [])
  | x :: t =>
      let i := Z.land (ri s + 1) 255 in
      let j := Z.land (rj s + at_ (perm s) i) 255 in
      let p := swap (perm s) i j in
      let y := Z.lxor x (at_ p (Z.land (at_ p i + at_ p j) 255)) in
      let '(s', r) := rc4_crypt (Rc4 i j p) t in (s', y :: r)
  end.
(** rc4.c3:36-41: [crypt]. *)
Definition rc4_once (key data : list Z) : list Z := snd (rc4_crypt (rc4_init key) data).
