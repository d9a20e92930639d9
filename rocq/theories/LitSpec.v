(** Specification of integer literals: the text, and the number it spells. *)
From Coq Require Import ZArith Bool List.
From Verif Require Import Int128Model Int128Spec.
Import ListNotations.
Open Scope Z_scope.

Inductive Base := Bin | Oct | Dec | Hex.
Definition radix (b : Base) : Z := match b with Bin => 2 | Oct => 8 | Dec => 10 | Hex => 16 end.

(** The value of a digit character ('0'-'9', 'a'-'f', 'A'-'F'). *)
Definition digit_of (c : Z) : option Z :=
  if (48 <=? c) && (c <=? 57) then Some (c - 48)
  else if (65 <=? c) && (c <=? 70) then Some (c - 55)
  else if (97 <=? c) && (c <=? 102) then Some (c - 87)
  else None.

(** Positional value of a digit string with '_' (95) separators; [None] if some
    character is not a digit of the base. *)
Fixpoint spelled (b : Base) (acc : Z) (s : list Z) : option Z :=
  match s with
  | [] => Some acc
  | c :: r => if c =? 95 then spelled b acc r
              else match digit_of c with
                   | Some d => if d <? radix b then spelled b (acc * radix b + d) r else None
                   | None => None
                   end
  end.

(** "0b", "0o", "0x" in either case; nothing for decimal. *)
Definition is_prefix (b : Base) (p : list Z) : Prop :=
  match b with
  | Bin => p = [48; 98] \/ p = [48; 66]
  | Oct => p = [48; 111] \/ p = [48; 79]
  | Hex => p = [48; 120] \/ p = [48; 88]
  | Dec => p = []
  end.

(** A type suffix is empty or starts with one of the letters u, i, l. *)
Definition is_suffix (s : list Z) : Prop :=
  s = [] \/ exists c r, s = c :: r /\ In c [117; 85; 105; 73; 108; 76].
Definition unsigned_suffix (s : list Z) : Prop := exists c r, s = c :: r /\ In c [117; 85].

(** Whether the literal has a signed type: decimal without suffix, or suffix i/l. *)
Definition signed_literal (b : Base) (suf : list Z) : Prop :=
  match suf with [] => b = Dec | c :: _ => In c [105; 73; 108; 76] end.

(** The spelling of the suffix of each type. *)
Definition suffix_text (k : IKind) : list Z :=
  match k with
  | I8 => [105; 56] | I16 => [105; 49; 54] | I32 => [105; 51; 50] | I64 => [105; 54; 52] | I128 => [105; 49; 50; 56]
  | U8 => [117; 56] | U16 => [117; 49; 54] | U32 => [117; 51; 50] | U64 => [117; 54; 52] | U128 => [117; 49; 50; 56]
  end.

Fixpoint digit_count (s : list Z) : Z :=
  match s with [] => 0 | c :: r => (if c =? 95 then 0 else 1) + digit_count r end.
Definition digit_bits (b : Base) : Z := match b with Bin => 1 | Oct => 3 | Hex => 4 | Dec => 0 end.
