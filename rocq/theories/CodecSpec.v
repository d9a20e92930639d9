(** Specification of the base-2^k encodings of RFC 4648, in terms of bit strings. *)
From Coq Require Import ZArith Bool List.
Import ListNotations.
Open Scope Z_scope.

(** The [n] low bits of a number, most significant first, and back. *)
Fixpoint bits (n : nat) (v : Z) : list bool := match n with O => [] | S m => Z.testbit v (Z.of_nat m) :: bits m v end.
Definition number (bs : list bool) : Z := fold_left (fun a b => 2 * a + Z.b2z b) bs 0.

Definition is_byte (b : Z) : Prop := 0 <= b < 256.
(** The bit string of a byte string (of a string of [k]-bit digits). *)
Definition bit_string (k : nat) (l : list Z) : list bool := flat_map (bits k) l.

(** A bit string cut into [k]-bit digits; the last one is filled up with zeros ([digits]) or an incomplete one is dropped ([whole]). *)
Fixpoint cut (fuel : nat) (k : nat) (fill : bool) (bs : list bool) : list Z :=
  match fuel, bs with
  | S f, _ :: _ =>
    if (k <=? length bs)%nat then number (firstn k bs) :: cut f k fill (skipn k bs)
    else if fill then [number (bs ++ repeat false (k - length bs))] else []
  | _, _ => []
  end.
Definition digits (k : nat) (bs : list bool) : list Z := cut (length bs) k true bs.
Definition whole (k : nat) (bs : list bool) : list Z := cut (length bs) k false bs.

(** How many padding characters complete [m] characters to a multiple of [q]. *)
Definition missing (q m : nat) : nat := ((q - m mod q) mod q)%nat.

Section Text.
(** [k] bits per character, quanta of [q] characters, alphabet [al], padding character ([0]: none). *)
Context (k q : nat) (al : list Z) (pad : Z).
Definition letter (d : Z) : Z := nth (Z.to_nat d) al (-1).
(** The text of a byte string. *)
Definition text (src : list Z) : list Z :=
  let cs := map letter (digits k (bit_string 8 src)) in
  cs ++ (if pad =? 0 then [] else repeat pad (missing q (length cs))).
(** [s] is a text for [x]: digits of the alphabet, with the right amount of padding, with fewer than [k] bits left over
    (their value is not looked at). *)
Definition text_of (s x : list Z) : Prop :=
  exists ds, s = map letter ds ++ (if pad =? 0 then [] else repeat pad (missing q (length ds)))
    /\ Forall (fun d => 0 <= d < 2 ^ Z.of_nat k) ds
    /\ ((length ds * k) mod 8 < k)%nat
    /\ x = whole 8 (bit_string k ds).
End Text.

(** An alphabet and its reverse table: letters are distinct bytes, the table gives the digit of each letter and 0xFF elsewhere. *)
Definition good_alphabet (k : nat) (al rev : list Z) : Prop :=
  Z.of_nat (length al) = 2 ^ Z.of_nat k /\ length rev = 256%nat
  /\ (forall d, 0 <= d < 2 ^ Z.of_nat k -> is_byte (letter al d) /\ nth (Z.to_nat (letter al d)) rev (-1) = d)
  /\ (forall c, is_byte c -> (forall d, 0 <= d < 2 ^ Z.of_nat k -> letter al d <> c) -> nth (Z.to_nat c) rev (-1) = 255).
(** A padding character (0: none): a byte other than 0xFF (the documented requirement) that is no letter. *)
Definition good_padding (k : nat) (al : list Z) (pad : Z) : Prop :=
  0 <= pad < 255 /\ ~ In pad al.

(** The alphabets of RFC 4648 (tables 1 to 4). *)
Definition from_to (a b : Z) : list Z := map (fun i => a + Z.of_nat i) (seq 0 (Z.to_nat (b - a + 1))).
Definition rfc_base64 : list Z := from_to 65 90 ++ from_to 97 122 ++ from_to 48 57 ++ [43; 47].
Definition rfc_base64url : list Z := from_to 65 90 ++ from_to 97 122 ++ from_to 48 57 ++ [45; 95].
Definition rfc_base32 : list Z := from_to 65 90 ++ from_to 50 55.
Definition rfc_base32hex : list Z := from_to 48 57 ++ from_to 65 86.

(** ** Hexadecimal *)
(** The text of a byte string: two lower-case digits per byte, high one first. *)
Definition hex_digit (d : Z) : Z := if d <? 10 then 48 + d else 87 + d.
Definition hex_text (src : list Z) : list Z := flat_map (fun b => [hex_digit (b / 16); hex_digit (b mod 16)]) src.
(** The value of a hexadecimal digit of either case. *)
Definition hex_value (c : Z) : option Z :=
  if (48 <=? c) && (c <=? 57) then Some (c - 48)
  else if (97 <=? c) && (c <=? 102) then Some (c - 87)
  else if (65 <=? c) && (c <=? 70) then Some (c - 55)
  else None.
(** The byte string a text of hexadecimal digits stands for. *)
Fixpoint hex_meaning (s : list Z) : option (list Z) :=
  match s with
  | [] => Some []
  | a :: b :: r =>
    match hex_value a, hex_value b, hex_meaning r with
    | Some x, Some y, Some l => Some (16 * x + y :: l)
    | _, _, _ => None
    end
  | _ => None
  end.
Definition lower_case (c : Z) : Z := if (65 <=? c) && (c <=? 90) then c + 32 else c.
