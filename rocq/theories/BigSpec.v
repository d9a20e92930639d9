(** What a BigInt stands for: integers of 8192 bits, and their notation in a radix. *)
From Coq Require Import ZArith List Bool.
From Verif Require Import BigModel.
Import ListNotations.
Open Scope Z_scope.

(** The range is -Half <= z < Half. *)
Definition Half : Z := 2 ^ 8191.
Definition Full : Z := 2 ^ 8192.
Definition in_range (z : Z) : Prop := - Half <= z < Half.

Definition word (x : Z) : Prop := 0 <= x < 2 ^ 32.
(** The number written by words, least significant first. *)
Fixpoint uval (l : list Z) : Z := match l with [] => 0 | x :: r => x + 2 ^ 32 * uval r end.

(** [b] is the representation of [z]: 256 words, two's complement, and [len] is the place of the last word that is not zero (1 for zero). *)
Record denotes (b : big) (z : Z) : Prop := Denotes {
  d_size : length (data b) = 256%nat;
  d_words : Forall word (data b);
  d_range : in_range z;
  d_value : uval (data b) = z mod Full;
  d_len : (1 <= len b <= 256)%nat;
  d_above : forall i, (len b <= i)%nat -> nth i (data b) 0 = 0;
  d_last : len b = 1%nat \/ nth (len b - 1) (data b) 0 <> 0 }.

(** The operation succeeds with [z]; or the program is stopped by a check. *)
Definition gives (r : res big) (z : Z) : Prop := exists b, r = Ok b /\ denotes b z.
Definition stops {A} (r : res A) : Prop := exists w, r = Stop w /\ w <> Fuel.

(** Numbers in a radix, as characters: digits 0-9 then A-Z or a-z, an optional leading minus, most significant digit first. *)
Definition digit_of (c : Z) : option Z :=
  if (Z.leb 48 c && Z.leb c 57)%bool then Some (c - 48)
  else if (Z.leb 65 c && Z.leb c 90)%bool then Some (c - 65 + 10)
  else if (Z.leb 97 c && Z.leb c 122)%bool then Some (c - 97 + 10)
  else None.
Fixpoint digits_value (radix acc : Z) (s : list Z) : option Z :=
  match s with
  | [] => Some acc
  | c :: s => match digit_of c with Some d => if d <? radix then digits_value radix (acc * radix + d) s else None | None => None end
  end.
Definition number (radix : Z) (s : list Z) : option Z :=
  match s with
  | [] => None
  | 45 :: [] => None
  | 45 :: ds => match digits_value radix 0 ds with Some v => Some (- v) | None => None end
  | ds => digits_value radix 0 ds
  end.
(** The usual notation: no superfluous zeros in front, capital letters. *)
Definition plain (s : list Z) : Prop :=
  s = [48] \/ exists ds, (s = ds \/ s = 45 :: ds) /\ ds <> [] /\ hd 48 ds <> 48 /\ Forall (fun c => 48 <= c <= 57 \/ 65 <= c <= 90) ds.
