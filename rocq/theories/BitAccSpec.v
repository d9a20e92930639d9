(** What the theorems about bitstruct members refer to. *)
From Coq Require Import ZArith List Bool.
From Verif Require Import BitAccModel.
Import ListNotations.
Open Scope Z_scope.

Definition len (f : Field) : Z := f_end f - f_start f + 1.
(** A member the compiler accepts: its bits are in the container, and no more than its type has; a bool has one bit. *)
Definition fits (bits : Z) (f : Field) : Prop :=
  0 <= f_start f <= f_end f /\ f_end f < bits /\ len f <= f_width f /\ (f_bool f = true -> f_start f = f_end f /\ f_signed f = false).
(** Members without a common bit. *)
Definition apart (f g : Field) : Prop := f_end f < f_start g \/ f_end g < f_start f.
(** The bits of the container, as one number: bit 0 is the lowest bit of the first byte; of the last one if [swap]. *)
Definition number (swap : bool) (mem : list Z) : Z := of_bytes (if swap then rev mem else mem).
(** A container of [bits] bits kept as an integer, on a little-endian machine. *)
Definition int_number (bits : Z) (swap : bool) (x : Z) : Z := number swap (bytes_of (Z.to_nat (bits / 8)) x).
(** The bits of a member. *)
Definition field (n : Z) (f : Field) : Z := (n / 2 ^ f_start f) mod 2 ^ len f.
(** The value of a member with these bits, as a word of the type of the member. *)
Definition value_of (f : Field) (x : Z) : Z := if f_signed f then signed (len f) x mod 2 ^ f_width f else x.
(** [n'] is [n] with the bits of the member replaced by the low bits of [v]. *)
Definition replaced (n : Z) (f : Field) (v n' : Z) : Prop :=
  0 <= n' /\ forall i, 0 <= i -> Z.testbit n' i = if (f_start f <=? i) && (i <=? f_end f) then Z.testbit v (i - f_start f) else Z.testbit n i.
(** In an array of the other byte order, the bytes of a member of more than a byte are in reverse. *)
Definition ordered (swap : bool) (f : Field) (x : Z) : Z := if swap && (8 <? len f) then of_bytes (rev (bytes_of (Z.to_nat (len f / 8)) x)) else x.
Definition bytes (m : list Z) : Prop := Forall (fun b => 0 <= b < 2 ^ 8) m.
Definition in_array (m : list Z) (f : Field) : Prop :=
  fits (8 * Z.of_nat (length m)) f /\ 8 <= f_width f <= 128 /\ f_width f mod 8 = 0.
(** Values of the member's type; bools are 0 or 1. *)
Definition value_ok (f : Field) (v : Z) : Prop := 0 <= v < 2 ^ f_width f /\ (f_bool f = true -> v < 2).
(** The bits that stand for a value of the member. *)
Definition written (swap : bool) (f : Field) (v : Z) : Z := if f_bool f then v else ordered swap f (v mod 2 ^ len f).
(** Members whose assignment is right: those that end with a byte, or are inside the first byte and do not start it. *)
Definition writable (f : Field) : Prop := f_end f mod 8 = 7 \/ (f_end f < 8 /\ 0 < f_start f mod 8).
(** A member and a constant for it, in an array of [n] bytes. *)
Definition good_init (swap : bool) (n : nat) (p : Field * Z) : Prop :=
  in_array (repeat 0 n) (fst p) /\ (swap = true -> 8 < len (fst p) -> is_power_of_two (len (fst p)) = true) /\ value_ok (fst p) (snd p).
