(** What the texts of Internet addresses denote, and the address blocks.  Only lists of bytes and numbers; nothing of the model. *)
From Coq Require Import ZArith Bool List.
Import ListNotations.
Open Scope Z_scope.

(** Decimal: digits and value. *)
Definition digit (c : Z) : Prop := 48 <= c <= 57.
Definition dec_value (l : list Z) : Z := fold_left (fun a c => a * 10 + (c - 48)) l 0.
(** A number of an IPv4 address: decimal digits, at least one, at most 255. *)
Definition octet (l : list Z) (v : Z) : Prop := l <> [] /\ Forall digit l /\ dec_value l = v /\ v <= 255.
(** [s] is the dotted text of a.b.c.d. *)
Definition v4_text (s : list Z) (a b c d : Z) : Prop :=
  exists la lb lc ld, s = la ++ 46 :: lb ++ 46 :: lc ++ 46 :: ld /\ octet la a /\ octet lb b /\ octet lc c /\ octet ld d.
(** [s] has no run of [n] or more digits. *)
Definition short_runs (n : nat) (good : Z -> Prop) (s : list Z) : Prop :=
  forall p m q, s = p ++ m ++ q -> Forall good m -> (length m < n)%nat.

(** Hexadecimal. *)
Definition hex_digit (c : Z) : option Z :=
  if (48 <=? c) && (c <=? 57) then Some (c - 48)
  else if (97 <=? c) && (c <=? 102) then Some (c - 87)
  else if (65 <=? c) && (c <=? 70) then Some (c - 55) else None.
Definition hexes (c : Z) : Prop := hex_digit c <> None.
Definition hex_value (l : list Z) : Z := fold_left (fun a c => a * 16 + match hex_digit c with Some d => d | None => 0 end) l 0.
(** RFC 4291, 2.2: one to four hexadecimal digits. *)
Definition hextet (l : list Z) (v : Z) : Prop := (1 <= length l <= 4)%nat /\ Forall hexes l /\ hex_value l = v.
(** Groups separated by colons; no group at all is the empty text. *)
Fixpoint colon_sep (l : list (list Z)) : list Z :=
  match l with [] => [] | [g] => g | g :: r => g ++ 58 :: colon_sep r end.
(** [s] is a text of the eight groups [gs]: all written out, or with :: for a stretch of at least [least] groups of zeros. *)
Definition v6_text (least : nat) (s : list Z) (gs : list Z) : Prop :=
  (exists l, s = colon_sep l /\ Forall2 hextet l gs /\ length gs = 8%nat) \/
  (exists l r gl gr k, s = colon_sep l ++ 58 :: 58 :: colon_sep r /\ Forall2 hextet l gl /\ Forall2 hextet r gr /\
     gs = gl ++ repeat 0 k ++ gr /\ (least <= k)%nat /\ length gs = 8%nat).
(** The text starts or ends with a colon that is not one of two. *)
Definition lone_colon_at_end (s : list Z) : Prop :=
  (exists c r, s = 58 :: c :: r /\ c <> 58) \/ (exists c r, s = r ++ [c; 58] /\ c <> 58).

(** Address blocks: the addresses whose first [len] of [bits] bits are those of [base]. *)
Definition in_block (bits len base addr : Z) : Prop := addr / 2 ^ (bits - len) = base / 2 ^ (bits - len).
Definition v4 (a b c d : Z) : Z := a * 2 ^ 24 + b * 2 ^ 16 + c * 2 ^ 8 + d.
Definition v6 (g : list Z) : Z := fold_left (fun acc x => acc * 65536 + x) g 0.
