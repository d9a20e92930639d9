(** Model of lib/std/collections/bitset.c3 and enumset.c3.  Words are [Z]; an index outside an array
    and a shift by the width or more (a panic in safe mode) are [Oob]. *)
From Coq Require Import ZArith Bool List.
From Verif Require Import Mach.
Import ListNotations.
Open Scope Z_scope.

(** [1 << r]: an int (or uint) shift, seen as an unsigned 32-bit word. *)
Definition shl1 (r : Z) : Res Z := if (0 <=? r) && (r <? 32) then Ok (2 ^ r) else Oob.
(** The popcount and clz builtins on a word of [w] bits. *)
Fixpoint popcount (w : nat) (x : Z) : Z := match w with O => 0 | S n => (if Z.testbit x (Z.of_nat n) then 1 else 0) + popcount n x end.
Fixpoint clz (w : nat) (x : Z) : Z := match w with O => 0 | S n => if Z.testbit x (Z.of_nat n) then 0 else 1 + clz n x end.

(** ** BitSet: [w] = BITS (bitset.c3:9-10); [w] = 32 for BitSet. *)
(** bitset.c3:10-15: a zero-initialised set of SIZE bits. *)
Definition bs_new (size : Z) : list Z := repeat 0 (Z.to_nat ((size + 32 - 1) / 32)).
(** bitset.c3:20-28, 186-194 *)
Definition bs_cardinality (w : nat) (d : list Z) : Z := fold_left (fun n x => n + popcount w x) d 0.
(** bitset.c3:37-42 *)
Definition bs_set (w : Z) (d : list Z) (i : Z) : Res (list Z) :=
  x <- get d (i / w) ;; b <- shl1 (i mod w) ;; set d (i / w) (Z.lor x b).
(** bitset.c3:123-128; [~] on a word of [w] bits. *)
Definition bs_unset (w : Z) (d : list Z) (i : Z) : Res (list Z) :=
  x <- get d (i / w) ;; b <- shl1 (i mod w) ;; set d (i / w) (Z.land x (2 ^ w - 1 - b)).
(** bitset.c3:137-142 *)
Definition bs_get (w : Z) (d : list Z) (i : Z) : Res bool :=
  x <- get d (i / w) ;; b <- shl1 (i mod w) ;; Ok (negb (Z.land x b =? 0)).
(** bitset.c3:144-147 *)
Definition bs_len (d : list Z) : Z := zlen d * 32.
(** bitset.c3:157-161, 240-244 *)
Definition bs_set_bool (w : Z) (d : list Z) (i : Z) (v : bool) : Res (list Z) := if v then bs_set w d i else bs_unset w d i.
(** bitset.c3:50-110: [foreach (i, x : self.data) new_set.data[i] = x op set.data[i]]; the _self variants do the same in place. *)
Fixpoint bs_map2 (f : Z -> Z -> Z) (d e : list Z) : Res (list Z) :=
  match d, e with
  | [], _ => Ok []
  | x :: d, y :: e => r <- bs_map2 f d e ;; Ok (f x y :: r)
  | _ :: _, [] => Oob
  end.

(** ** GrowableBitSet: the List of words is a sequence. *)
(** bitset.c3:201-206: push zeros until [q] is an index. *)
Definition gb_grow (d : list Z) (q : Z) : list Z := d ++ repeat 0 (Z.to_nat (q + 1 - zlen d)).
(** bitset.c3:196-208 *)
Definition gb_set (w : Z) (d : list Z) (i : Z) : Res (list Z) := bs_set w (gb_grow d (i / w)) i.
(** bitset.c3:210-216 *)
Definition gb_unset (w : Z) (d : list Z) (i : Z) : Res (list Z) := if zlen d <=? i / w then Ok d else bs_unset w d i.
(** bitset.c3:218-224 *)
Definition gb_get (w : Z) (d : list Z) (i : Z) : Res bool := if zlen d <=? i / w then Ok false else bs_get w d i.
(** bitset.c3:226-231 *)
Definition gb_len (w : nat) (d : list Z) : Res Z :=
  let n := zlen d * Z.of_nat w in
  if 0 <? n then x <- get d (zlen d - 1) ;; Ok (n - clz w x) else Ok n.

(** ** EnumSet *)
(** enumset.c3:11-13, 143-159: more than 128 elements use a char array, at most 32 a uint ($$C_INT_SIZE is 32).
    Not modelled: 33 to 128 elements, for which [1u << (EnumSetType)v.ordinal] does not compile, since the
    widening of a shift is not "simple" (sema_casts.c:1238-1256, expr.c:970-972). *)
Inductive eset := EInt (x : Z) | EArr (l : list Z).
Definition es_new (n : Z) : eset := if 128 <? n then EArr (repeat 0 (Z.to_nat ((n + 7) / 8))) else EInt 0.
(** enumset.c3:15-22 *)
Definition es_add (s : eset) (v : Z) : Res eset :=
  match s with
  | EArr l => x <- get l (v / 8) ;; b <- shl1 (v mod 8) ;; l <- set l (v / 8) (Z.lor x (b mod 256)) ;; Ok (EArr l)
  | EInt x => b <- shl1 v ;; Ok (EInt (Z.lor x b))
  end.
(** enumset.c3:48-55: [(self[v / 8] << (v % 8)) & 0x01] on the byte promoted to int. *)
Definition es_has (s : eset) (v : Z) : Res bool :=
  match s with
  | EArr l => x <- get l (v / 8) ;; Ok (negb (Z.land (Z.shiftl x (v mod 8) mod 2 ^ 32) 1 =? 0))
  | EInt x => b <- shl1 v ;; Ok (negb (Z.land x b =? 0))
  end.
(** enumset.c3:33-46 *)
Definition es_remove (s : eset) (v : Z) : Res (bool * eset) :=
  match s with
  | EArr l =>
    h <- es_has s v ;;
    if negb h then Ok (false, s) else
    x <- get l (v / 8) ;; b <- shl1 (v mod 8) ;; l <- set l (v / 8) (Z.land x ((2 ^ 32 - 1 - b) mod 256)) ;; Ok (true, EArr l)
  | EInt x => b <- shl1 v ;; let y := Z.land x (2 ^ 32 - 1 - b) in Ok (negb (x =? y), EInt y)
  end.
(** enumset.c3:57-125: add_all/or_of, retain_all/and_of, remove_all/diff_of, xor_of. *)
Definition es_bin (f : Z -> Z -> Z) (s t : eset) : Res eset :=
  match s, t with
  | EArr l, EArr m => r <- bs_map2 f l m ;; Ok (EArr r)
  | EInt x, EInt y => Ok (EInt (f x y))
  | _, _ => Oob
  end.
Definition es_add_all := es_bin Z.lor.
Definition es_retain_all := es_bin Z.land.
Definition es_remove_all (s t : eset) : Res eset :=
  match s with
  | EArr _ => es_bin (fun x y => Z.land x (255 - y)) s t
  | EInt _ => es_bin (fun x y => Z.land x (2 ^ 32 - 1 - y)) s t
  end.
Definition es_xor_of := es_bin Z.lxor.
