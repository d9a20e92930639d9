(** std::math::bigint::BigInt (lib/std/math/bigint.c3): integers of 8192 bits in two's complement, kept as 256 words of 32 bits, least significant
    first, and the number of words up to the last one that is not zero. *)
From Coq Require Import ZArith List Bool.
Import ListNotations.
Open Scope Z_scope.

(** bigint.c3:8: [MAX_LEN]. *)
Definition MAX_LEN : nat := 256.
Definition B : Z := 4294967296.
(** Arithmetic of type `ulong` and `uint`. *)
Definition u64 (x : Z) : Z := x mod 18446744073709551616.
Definition u32 (x : Z) : Z := x mod B.
(** bigint.c3:13-17: [struct BigInt]. *)
Record big := Big { data : list Z; len : nat }.

(** Where a program with checks enabled stops: a failed `assert`, an index outside an array, a division by zero. [Fuel] is not in the code: a bound on the number of
    iterations of a loop of the model was reached. *)
Inductive why := Assert | Index | DivZero | Fuel.
Inductive res (A : Type) := Ok (a : A) | Stop (w : why).
Arguments Ok {A}. Arguments Stop {A}.
Definition bind {A C} (x : res A) (f : A -> res C) : res C := match x with Ok a => f a | Stop w => Stop w end.
Notation "'do' x <- e ; f" := (bind e (fun x => f)) (at level 200, x pattern, e at level 100, f at level 200).

Definition set (l : list Z) (i : nat) (x : Z) : list Z := firstn i l ++ match skipn i l with [] => [] | _ :: t => x :: t end.
Definition zeros (n : nat) : list Z := repeat 0 n.
(** bigint.c3:10-11: [ZERO], [ONE]. *)
Definition ZERO : big := Big (zeros MAX_LEN) 1.
Definition ONE : big := Big (1 :: zeros (MAX_LEN - 1)) 1.

(** bigint.c3:126-129: [is_negative], of the words. *)
Definition neg_words (d : list Z) : bool := negb (Z.land (nth (MAX_LEN - 1) d 0) 2147483648 =? 0).
Definition is_negative (b : big) : bool := neg_words (data b).
(** bigint.c3:166-173: [find_length]. *)
Fixpoint find_length (d : list Z) (n : nat) : nat :=
  match n with
  | S (S _ as m) => if nth m d 0 =? 0 then find_length d m else n
  | _ => n
  end.
(** bigint.c3:161-164: [reduce_len]. *)
Definition reduce_len (d : list Z) (n : nat) : big := Big d (Nat.max (find_length d n) 1).
(** bigint.c3:268 [is_zero], 493-496 [is_one], 487-490 [is_odd]. *)
Definition is_zero (b : big) : bool := Nat.eqb (len b) 1 && (nth 0 (data b) 0 =? 0).
Definition is_one (b : big) : bool := Nat.eqb (len b) 1 && (nth 0 (data b) 0 =? 1).
Definition is_odd (b : big) : bool := negb (Z.land (nth 0 (data b) 0) 1 =? 0).

(** bigint.c3:26-42: [init]: the words of an int128; [fuel] is the number of words left. *)
Fixpoint init_words (fuel : nat) (tmp : Z) : list Z :=
  match fuel with
  | O => []
  | S f => if tmp =? 0 then [] else tmp mod B :: init_words f (tmp / B)
  end.
Definition from_int (value : Z) : res big :=
  let w := init_words MAX_LEN value in
  let d := w ++ zeros (MAX_LEN - length w) in
  let tmp := value / B ^ Z.of_nat (length w) in
  if negb ((value <? 0) || (tmp =? 0) || negb (neg_words d)) then Stop Assert
  else if negb ((0 <=? value) || (tmp =? -1) || neg_words d) then Stop Assert
  else Ok (reduce_len d (length w)).
(** bigint.c3:44-57: [init_with_u128]. *)
Definition from_u128 (value : Z) : res big :=
  let w := init_words MAX_LEN value in
  let d := w ++ zeros (MAX_LEN - length w) in
  if neg_words d then Stop Assert else Ok (Big d (Nat.max (length w) 1)).
(** bigint.c3:62-83: [init_with_array]: the words, most significant first; the contract is that there are at most 256. *)
Definition from_array (values : list Z) : big :=
  match values with
  | [] => Big (zeros MAX_LEN) 1
  | _ => let d := rev values ++ zeros (MAX_LEN - length values) in Big d (find_length d (length values))
  end.

(** bigint.c3:137-159: [add_this]; the loop on the first [n] words gives the words and the carry. *)
Fixpoint add_loop (n : nat) (a b : list Z) (carry : Z) : list Z * Z :=
  match n, a, b with
  | S n, x :: a, y :: b => let sum := u64 (x + y + carry) in let (r, c) := add_loop n a b (sum / B) in (sum mod B :: r, c)
  | _, _, _ => (a, carry)
  end.
Definition add (a b : big) : res big :=
  let n := Nat.max (len a) (len b) in
  let (d, c) := add_loop n (data a) (data b) 0 in
  let r := if negb (c =? 0) && Nat.ltb n MAX_LEN then reduce_len (set d n (u32 c)) (S n) else reduce_len d n in
  if negb (Bool.eqb (is_negative a) (is_negative b)) || Bool.eqb (is_negative a) (is_negative r) then Ok r else Stop Assert.

(** bigint.c3:242-266: [negate]; the loop adds one to the complement. *)
Fixpoint inc_loop (a : list Z) (carry : Z) : list Z :=
  match a with
  | [] => []
  | x :: a => if carry =? 0 then x :: a else let v := u64 (x + 1) in v mod B :: inc_loop a (v / B)
  end.
Definition negate (b : big) : res big :=
  if is_zero b then Ok b else
  let d := inc_loop (map (fun x => B - 1 - x) (data b)) 1 in
  if Bool.eqb (neg_words d) (is_negative b) then Stop Assert else Ok (reduce_len d MAX_LEN).
(** bigint.c3:330-336: [unary_minus]; 509-512: [abs]. *)
Definition unary_minus (b : big) : res big := if is_zero b then Ok b else negate b.
Definition abs (b : big) : res big := if is_negative b then unary_minus b else Ok b.

(** bigint.c3:276-308: [sub_this]. *)
Fixpoint sub_loop (n : nat) (a b : list Z) (carry : Z) : list Z * Z :=
  match n, a, b with
  | S n, x :: a, y :: b => let diff := x - y - carry in let (r, c) := sub_loop n a b (if diff <? 0 then 1 else 0) in (diff mod B :: r, c)
  | _, _, _ => (a, carry)
  end.
Definition sub (a b : big) : res big :=
  let n := Nat.max (len a) (len b) in
  let (d, c) := sub_loop n (data a) (data b) 0 in
  let r := if negb (c =? 0) then reduce_len (firstn n d ++ repeat 4294967295 (MAX_LEN - n)) MAX_LEN else reduce_len d n in
  if Bool.eqb (is_negative a) (is_negative b) || Bool.eqb (is_negative a) (is_negative r) then Ok r else Stop Assert.

(** bigint.c3:206-226: the loops of [mult_this]: [row] adds word [x] times the words [ys] at the place where [r] begins; [None] is a write past the array. *)
Fixpoint row (x : Z) (ys r : list Z) (carry : Z) : option (list Z) :=
  match ys with
  | [] => if carry =? 0 then Some r else match r with [] => None | _ :: t => Some (u32 carry :: t) end
  | y :: ys => match r with
               | [] => None
               | z :: r => let v := u64 (x * y + z + carry) in match row x ys r (v / B) with Some t => Some (v mod B :: t) | None => None end
               end
  end.
Fixpoint mul_loop (xs ys r : list Z) : option (list Z) :=
  match xs with
  | [] => Some r
  | x :: xs =>
      match (if x =? 0 then Some r else row x ys r 0) with
      | None => None
      | Some [] => Some []
      | Some (z :: t) => match mul_loop xs ys t with Some t => Some (z :: t) | None => None end
      end
  end.
(** bigint.c3:182-240: [mult_this]. *)
Definition mult (a b : big) : res big :=
  if is_zero b then Ok ZERO else
  if is_one b then Ok a else
  let sign := xorb (is_negative a) (is_negative b) in
  do a <- (if is_negative a then negate a else Ok a);
  do b <- (if is_negative b then negate b else Ok b);
  match mul_loop (firstn (len a) (data a)) (firstn (len b) (data b)) (zeros MAX_LEN) with
  | None => Stop Index
  | Some d =>
      let r := reduce_len d (Nat.min (len a + len b) MAX_LEN) in
      if is_negative r then Stop Assert else if sign then negate r else Ok r
  end.

(** bigint.c3:461-484: the comparisons, by the highest word below [n] that differs. *)
Fixpoint differ (n : nat) (a b : list Z) : option (Z * Z) :=
  match n with
  | O => None
  | S k => if nth k a 0 =? nth k b 0 then differ k a b else Some (nth k a 0, nth k b 0)
  end.
Definition greater_than (a b : big) : bool :=
  if is_negative a && negb (is_negative b) then false
  else if negb (is_negative a) && is_negative b then true
  else match differ (Nat.max (len a) (len b)) (data a) (data b) with Some (x, y) => y <? x | None => false end.
Definition less_than (a b : big) : bool :=
  if is_negative a && negb (is_negative b) then true
  else if negb (is_negative a) && is_negative b then false
  else match differ (Nat.max (len a) (len b)) (data a) (data b) with Some (x, y) => x <? y | None => false end.
(** bigint.c3:455-459: [equals]; 498-501: [greater_or_equal]. *)
Fixpoint words_eqb (a b : list Z) : bool :=
  match a, b with
  | [], [] => true
  | x :: a, y :: b => (x =? y) && words_eqb a b
  | _, _ => false
  end.
Definition equals (a b : big) : bool :=
  if negb (Nat.eqb (len a) (len b)) then false else words_eqb (firstn (len a) (data a)) (firstn (len a) (data b)).
Definition greater_or_equal (a b : big) : bool := greater_than a b || equals a b.

(** bigint.c3:310-325: [bitcount]; the loop counts the bits of the top word down from 32. *)
Fixpoint top_bits (bits : nat) (v : Z) : nat :=
  match bits with
  | O => O
  | S k => if Z.testbit v (Z.of_nat k) then bits else top_bits k v
  end.
Definition bitcount (b : big) : Z :=
  let n := len (reduce_len (data b) (len b)) in
  Z.of_nat (top_bits 32 (nth (n - 1) (data b) 0)) + Z.of_nat (n - 1) * 32.

(** bigint.c3:428-440: [bit_negate_this]; 757-820: [bit_and_this], [bit_or_this], [bit_xor_this]. *)
Definition bit_negate (b : big) : big := reduce_len (map (fun x => B - 1 - x) (data b)) MAX_LEN.
Fixpoint bits_loop (f : Z -> Z -> Z) (n : nat) (a b : list Z) : list Z :=
  match n, a, b with
  | S n, x :: a, y :: b => f x y :: bits_loop f n a b
  | _, _, _ => a
  end.
Definition bit_op (f : Z -> Z -> Z) (a b : big) : big := reduce_len (bits_loop f (Nat.max (len a) (len b)) (data a) (data b)) MAX_LEN.
Definition bit_and := bit_op Z.land.
Definition bit_or := bit_op Z.lor.
Definition bit_xor := bit_op Z.lxor.

(** bigint.c3:1052-1084: [shift_left] on the first [n] words of [d]; one pass shifts by [s] <= 32 bits and gives the carry. *)
Fixpoint shl_pass (n : nat) (d : list Z) (s carry : Z) : list Z * Z :=
  match n, d with
  | S n, x :: d => let v := Z.lor (u64 (x * 2 ^ s)) carry in let (r, c) := shl_pass n d s (v / B) in (v mod B :: r, c)
  | _, _ => (d, carry)
  end.
Fixpoint shl_loop (fuel : nat) (d : list Z) (n buf : nat) (count : Z) : list Z * nat :=
  match fuel with
  | O => (d, buf)
  | S f =>
      if count <=? 0 then (d, buf) else
      let s := if count <? 32 then count else 32 in
      let (d1, c) := shl_pass buf d s 0 in
      if negb (c =? 0) && Nat.leb (buf + 1) n then shl_loop f (set d1 buf (u32 c)) n (buf + 1) (count - s) else shl_loop f d1 n buf (count - s)
  end.
Definition shift_left (d : list Z) (n : nat) (shift : Z) : list Z * nat := shl_loop (S (Z.to_nat (shift / 32 + 1))) d n (find_length d n) shift.
(** bigint.c3:1086-1121: [shift_right]; a pass goes down from the highest word. *)
Fixpoint shr_pass (rd : list Z) (s inv carry : Z) : list Z :=
  match rd with
  | [] => []
  | x :: rd => u32 (Z.lor (x / 2 ^ s) carry) :: shr_pass rd s inv (u64 (x * 2 ^ inv))
  end.
Fixpoint shr_loop (fuel : nat) (d : list Z) (buf : nat) (count : Z) : list Z :=
  match fuel with
  | O => d
  | S f =>
      if count <=? 0 then d else
      let s := if count <? 32 then count else 32 in
      shr_loop f (rev (shr_pass (rev (firstn buf d)) s (if count <? 32 then 32 - s else 0) 0) ++ skipn buf d) buf (count - s)
  end.
Definition shift_right (d : list Z) (n : nat) (shift : Z) : list Z * nat :=
  let buf := find_length d n in
  let d1 := shr_loop (S (Z.to_nat (shift / 32 + 1))) d buf shift in (d1, find_length d1 buf).
(** bigint.c3:822-825 and 449-453: [shl_this], [shl]. *)
Definition shl (b : big) (shift : Z) : big := let (d, n) := shift_left (data b) (len b) shift in Big d n.
(** bigint.c3:438-447: [shr_this] takes its receiver by value, so [shr] returns its own copy unchanged. *)
Definition shr_this (b : big) (shift : Z) : big * big := let (d, n) := shift_right (data b) (len b) shift in (b, Big d n).
Definition shr (b : big) (shift : Z) : big := fst (shr_this b shift).

(** bigint.c3:890-936: [single_byte_divide]. The words of the dividend are given from the highest; the word above the current one holds the remainder so far and is cleared, so that
    at the end only the lowest word of the remainder is left: simplified here to the remainder so far as an argument. *)
Fixpoint sbd_loop (rd : list Z) (divisor rem : Z) : list Z * Z :=
  match rd with
  | [] => ([], rem)
  | x :: rd => let dividend := u64 (u64 (rem * B) + x) in let (q, r) := sbd_loop rd divisor (u32 (dividend mod divisor)) in (u32 (dividend / divisor) :: q, r)
  end.
Definition single_byte_divide (a b : big) : res (big * big) :=
  let n := find_length (data a) (len a) in
  let divisor := nth 0 (data b) 0 in
  let top := nth (n - 1) (data a) 0 in
  if (divisor <=? top) && (divisor =? 0) then Stop DivZero else
  let low := rev (firstn (n - 1) (data a)) in
  let (q, r) := if divisor <=? top
                then let (q, r) := sbd_loop low divisor (u32 (top mod divisor)) in (u32 (top / divisor) :: q, r)
                else sbd_loop low divisor top in
  Ok (reduce_len (rev q ++ zeros (MAX_LEN - length q)) (length q), reduce_len (r :: zeros (MAX_LEN - 1)) n).

(** bigint.c3:943-1050: [multi_byte_divide], step by step; `r` is an array of 256 words, of which the code may read one too many. *)
Definition rd (l : list Z) (i : Z) : res Z := if (0 <=? i) && (i <? Z.of_nat (length l)) then Ok (nth (Z.to_nat i) l 0) else Stop Index.
Fixpoint lead (fuel : nat) (v mask : Z) : Z :=
  match fuel with
  | O => 0
  | S f => if negb (mask =? 0) && (Z.land v mask =? 0) then 1 + lead f v (mask / 2) else 0
  end.
(** Lines 985-997: the estimate of a word of the quotient. *)
Fixpoint estimate (fuel : nat) (q_hat r_hat first second third : Z) : res (Z * Z) :=
  match fuel with
  | O => Stop Fuel
  | S f =>
      if (q_hat =? 268435456) || (u64 (u64 (r_hat * B) + third) <? u64 (q_hat * second)) then
        let q := u64 (q_hat - 1) in let r := u64 (r_hat + first) in
        if r <? 268435456 then estimate f q r first second third else Ok (q, r)
      else Ok (q_hat, r_hat)
  end.
(** Lines 1007-1012. *)
Fixpoint correct (fuel : nat) (q_hat : Z) (ss kk bi2 : big) : res (Z * big) :=
  match fuel with
  | O => Stop Fuel
  | S f => if greater_than ss kk then do ss <- sub ss bi2; correct f (u64 (q_hat - 1)) ss kk bi2 else Ok (q_hat, ss)
  end.
(** Lines 999-1003: [dividend_part], highest word of `r` first. *)
Fixpoint part (r : list Z) (pos : Z) (n : nat) : res (list Z) :=
  match n with
  | O => Ok []
  | S k => do x <- rd r pos; do t <- part r (pos - 1) k; Ok (x :: t)
  end.
(** Lines 1015-1018. *)
Fixpoint put_back (r : list Z) (pos : Z) (ws : list Z) : list Z :=
  match ws with
  | [] => r
  | w :: ws => put_back (set r (Z.to_nat pos) w) (pos - 1) ws
  end.
Fixpoint mbd_loop (j : nat) (bi2 : big) (r : list Z) (pos : Z) (result : list Z) : res (list Z * list Z) :=
  match j with
  | O => Ok (r, result)
  | S j =>
      let first := nth (len bi2 - 1) (data bi2) 0 in
      let second := nth (len bi2 - 2) (data bi2) 0 in
      do r0 <- rd r pos; do r1 <- rd r (pos - 1); do r2 <- rd r (pos - 2);
      let dividend := u64 (u64 (r0 * B) + r1) in
      if first =? 0 then Stop DivZero else
      do (q, _) <- estimate 300 (dividend / first) (dividend mod first) first second r2;
      do p <- part r pos (S (len bi2));
      let kk := Big (p ++ zeros (MAX_LEN - length p)) (S (len bi2)) in
      do qb <- from_int q; do ss <- mult bi2 qb;
      do (q, ss) <- correct 300 q ss kk bi2;
      do yy <- sub kk ss;
      let r' := put_back r pos (rev (firstn (S (len bi2)) (data yy))) in
      mbd_loop j bi2 r' (pos - 1) (u32 q :: result)
  end.
Definition multi_byte_divide (a b : big) : res (big * big) :=
  let shift := lead 32 (nth (len b - 1) (data b) 0) 2147483648 in
  let r := firstn (len a) (data a) ++ zeros (MAX_LEN - len a) in
  if Nat.ltb MAX_LEN (len a + 1) then Stop Index else
  let (r, rlen) := shift_left r (len a + 1) shift in
  let bi2 := shl b shift in
  do (r, result) <- mbd_loop (rlen - len bi2) bi2 r (Z.of_nat rlen - 1) [];
  let q := reduce_len (result ++ zeros (MAX_LEN - length result)) (length result) in
  let (r, n) := shift_right r rlen shift in
  Ok (q, Big (firstn n r ++ zeros (MAX_LEN - n)) n).

(** bigint.c3:345-382: [div_this]; 390-426: [mod_this]. *)
Definition div (a b : big) : res big :=
  let sign := xorb (is_negative a) (is_negative b) in
  do a <- (if is_negative a then negate a else Ok a);
  do b <- (if is_negative b then negate b else Ok b);
  let a := if less_than a b then ZERO else a in
  do (q, _) <- (if Nat.eqb (len b) 1 then single_byte_divide a b else multi_byte_divide a b);
  if sign then negate q else Ok q.
Definition mod_ (a b : big) : res big :=
  do b <- (if is_negative b then negate b else Ok b);
  let sign := is_negative a in
  do a <- (if sign then negate a else Ok a);
  if less_than a b then (if sign then negate a else Ok a) else
  do (_, r) <- (if Nat.eqb (len b) 1 then single_byte_divide a b else multi_byte_divide a b);
  if sign then negate r else Ok r.

(** bigint.c3:85-124: [init_string_radix]: the answer is a number, or one of two faults. Characters are taken from the last to the first; [digits] is what is left. *)
Inductive parsed := Number (b : big) | MALFORMED | OVERFLOW.
Definition digit (c : Z) : option Z :=
  if (48 <=? c) && (c <=? 57) then Some (c - 48)
  else if (65 <=? c) && (c <=? 90) then Some (c - 55)
  else if (97 <=? c) && (c <=? 122) then Some (c - 87)
  else None.
Fixpoint parse_loop (digits : list Z) (minus : bool) (radix : Z) (radix_big self multiplier : big) : res (option big) :=
  match digits with
  | [] => Ok (Some self)
  | c :: rest =>
      match digit c with
      | None => Ok None
      | Some v =>
          if radix <=? v then Ok None else
          do d <- from_int (if minus then - v else v);
          do p <- mult multiplier d;
          do self <- add self p;
          match rest with
          | [] => Ok (Some self)
          | _ => do multiplier <- mult multiplier radix_big; parse_loop rest minus radix radix_big self multiplier
          end
      end
  end.
Definition init_string_radix (value : list Z) (radix : Z) : res parsed :=
  match value with
  | [] => Stop Index
  | c0 :: rest =>
      let minus := c0 =? 45 in
      do radix_big <- from_int radix;
      do r <- parse_loop (rev (if minus then rest else value)) minus radix radix_big ZERO ONE;
      match r with
      | None => Ok MALFORMED
      | Some b => if xorb minus (is_negative b) then Ok OVERFLOW else Ok (Number b)
      end
  end.

(** bigint.c3:530-569: [to_string_with_radix] for radix 2 to 36; the digits come lowest first and are reversed at the end. *)
Definition digit_char (d : Z) : Z := if d <? 10 then d + 48 else d - 10 + 65.
Fixpoint digits_loop (fuel : nat) (a big_radix : big) : res (list Z) :=
  match fuel with
  | O => Stop Fuel
  | S f => if is_zero a then Ok [] else
           do (q, r) <- single_byte_divide a big_radix;
           do t <- digits_loop f q big_radix; Ok (digit_char (nth 0 (data r) 0) :: t)
  end.
Definition to_string_with_radix (b : big) (radix : Z) : res (list Z) :=
  if is_zero b then Ok [48] else
  do a <- (if is_negative b then negate b else Ok b);
  do radix_big <- from_int radix;
  do ds <- digits_loop (32 * MAX_LEN + 1) a radix_big;
  Ok (rev (ds ++ (if is_negative b then [45] else []))).

(** bigint.c3:722-755: [sqrt]; the two nested loops over words and masks are one loop over bit positions, from bit [p] - 1 down. *)
Definition flip (d : list Z) (p : nat) : list Z := set d (p / 32) (Z.lxor (nth (p / 32) d 0) (2 ^ Z.of_nat (p mod 32))).
Fixpoint sqrt_loop (p : nat) (n : big) (r : big) : res big :=
  match p with
  | O => Ok r
  | S k =>
      let g := Big (flip (data r) k) (len r) in
      do s <- mult g g;
      sqrt_loop k n (if greater_than s n then Big (flip (data g) k) (len r) else g)
  end.
Definition sqrt (n : big) : res big :=
  let bits := bitcount n in
  let half := if Z.odd bits then bits / 2 + 1 else bits / 2 in
  let byte_pos := if half mod 32 =? 0 then half / 32 else half / 32 + 1 in
  let top := if half mod 32 =? 0 then half else half + 1 in
  sqrt_loop (Z.to_nat top) n (Big (zeros MAX_LEN) (Z.to_nat byte_pos)).

(** bigint.c3:827-848: [gcd], [lcm]. *)
Fixpoint gcd_loop (fuel : nat) (x y g : big) : res big :=
  match fuel with
  | O => Stop Fuel
  | S f => if is_zero x then Ok g else do m <- mod_ y x; gcd_loop f m x x
  end.
Definition gcd (a b : big) : res big :=
  do x <- abs a; do y <- abs b; gcd_loop (64 * MAX_LEN + 2) x y y.
Definition lcm (a b : big) : res big :=
  do x <- abs a; do y <- abs b; do g <- mult y x; do d <- gcd x y; div g d.

(** bigint.c3:635-720: [barrett_reduction]. [low_row] and [low_loop] multiply and keep the lowest [room] words (684-704). *)
Fixpoint low_row (x : Z) (ys r : list Z) (room : nat) (carry : Z) : list Z :=
  match room, r with
  | S room, z :: t => match ys with
                      | [] => u32 carry :: t
                      | y :: ys => let v := u64 (u64 (x * y) + z + carry) in v mod B :: low_row x ys t room (v / B)
                      end
  | _, _ => r
  end.
Fixpoint low_loop (xs ys r : list Z) (room : nat) : list Z :=
  match xs with
  | [] => r
  | x :: xs => match (if x =? 0 then r else low_row x ys r room 0) with [] => [] | z :: t => z :: low_loop xs ys t (room - 1) end
  end.
Fixpoint take_off (fuel : nat) (r n : big) : res big :=
  match fuel with
  | O => Stop Fuel
  | S f => if greater_or_equal r n then do r <- sub r n; take_off f r n else Ok r
  end.
Definition barrett_reduction (x n constant : big) : res big :=
  let k := len n in
  if Nat.ltb (len x) (k - 1) then Stop Index else
  let l1 := (len x - (k - 1))%nat in
  let q1 := if Nat.eqb l1 0 then Big (zeros MAX_LEN) 1 else Big (firstn l1 (skipn (k - 1) (data x)) ++ zeros (MAX_LEN - l1)) l1 in
  do q2 <- mult q1 constant;
  if Nat.ltb (len q2) (k + 1) then Stop Assert else
  let l3 := (len q2 - (k + 1))%nat in
  let q3 := if Nat.eqb l3 0 then Big (zeros MAX_LEN) 1 else Big (firstn l3 (skipn (k + 1) (data q2)) ++ zeros (MAX_LEN - l3)) l3 in
  let l := Nat.min (k + 1) (len x) in
  let r1 := Big (firstn l (data x) ++ zeros (MAX_LEN - l)) l in
  let r2 := reduce_len (low_loop (firstn (len q3) (data q3)) (firstn (len n) (data n)) (zeros MAX_LEN) (k + 1)) (k + 1) in
  do r1 <- sub r1 r2;
  do r1 <- (if is_negative r1 then if Nat.ltb (k + 1) MAX_LEN then add r1 (Big (set (zeros MAX_LEN) (k + 1) 1) (k + 2)) else Stop Index else Ok r1);
  take_off 300 r1 n.

(** bigint.c3:571-630: [mod_pow]; the contract is that [exp] is not negative. The loops over words and bits of the exponent are one loop over bits; `count == total_bits` ends it
    after the highest bit, and never when the exponent is 0. *)
Fixpoint pow_loop (n i : nat) (exp num result modulus constant : big) : res big :=
  match n with
  | O => Ok result
  | S n =>
      do result <- (if Z.testbit (nth (i / 32) (data exp) 0) (Z.of_nat (i mod 32)) then do p <- mult result num; barrett_reduction p modulus constant else Ok result);
      do sq <- mult num num;
      do num <- barrett_reduction sq modulus constant;
      if is_one num then Ok result else pow_loop n (S i) exp num result modulus constant
  end.
Definition mod_pow (a exp modulus : big) : res big :=
  let was_neg := is_negative a in
  do num <- (if was_neg then negate a else Ok a);
  do modulus <- (if is_negative modulus then negate modulus else Ok modulus);
  do num <- mod_ num modulus;
  let i := (2 * len modulus)%nat in
  if Nat.leb MAX_LEN i then Stop Index else
  do constant <- div (Big (set (zeros MAX_LEN) i 1) (i + 1)) modulus;
  let total := bitcount exp in
  do result <- pow_loop (if total =? 0 then (32 * len exp)%nat else Z.to_nat total) 0 exp num ONE modulus constant;
  if was_neg && is_odd exp then negate result else Ok result.
