(** What byte literals mean, independent of the parser. *)
From Coq Require Import ZArith Bool List.
From Verif Require Import LexSpec.
Import ListNotations.
Open Scope Z_scope.

Definition is_space (c : Z) : bool := (c =? 32) || (c =? 9) || (c =? 10).
Definition is_quote (c : Z) : bool := (c =? 34) || (c =? 39) || (c =? 96).
(** Pairs of hexadecimal digits. *)
Fixpoint hex_bytes (ds : list Z) : list Z :=
  match ds with
  | a :: b :: r => match hexdigit a, hexdigit b with Some x, Some y => (16 * x + y) :: hex_bytes r | _, _ => [] end
  | _ => []
  end.
(** RFC 4648 section 4: the alphabet and the decoding of 6-bit groups, without the padding. *)
Definition b64_digit (c : Z) : option Z :=
  if (65 <=? c) && (c <=? 90) then Some (c - 65)
  else if (97 <=? c) && (c <=? 122) then Some (c - 71)
  else if (48 <=? c) && (c <=? 57) then Some (c + 4)
  else if c =? 43 then Some 62 else if c =? 47 then Some 63 else None.
Fixpoint b64_values (cs : list Z) : option (list Z) :=
  match cs with [] => Some [] | c :: r => match b64_digit c, b64_values r with Some v, Some l => Some (v :: l) | _, _ => None end end.
Fixpoint b64_bytes (vs : list Z) : list Z :=
  match vs with
  | a :: b :: c :: d :: r => (a * 4 + b / 16) :: (b mod 16 * 16 + c / 4) :: (c mod 4 * 64 + d) :: b64_bytes r
  | [a; b; c] => [a * 4 + b / 16; b mod 16 * 16 + c / 4]
  | [a; b] => [a * 4 + b / 16]
  | _ => []
  end.

(** A literal as written: its prefix and quotes, and its content with white space anywhere. *)
Inductive lit := Hex (q : Z) (content : list Z) | B64 (q : Z) (content : list Z).
Definition no_space (s : list Z) : list Z := filter (fun c => negb (is_space c)) s.
Definition lit_text (l : lit) : list Z :=
  match l with Hex q c => 120 :: q :: c ++ [q] | B64 q c => 98 :: 54 :: 52 :: q :: c ++ [q] end.
(** The bytes a literal stands for: an even number of hex digits; or base64 digits, padded to a multiple of four with "=". *)
Inductive Means : lit -> list Z -> Prop :=
| Means_hex q c : is_quote q = true -> Forall (fun x => hexdigit x <> None \/ is_space x = true) c -> Nat.even (length (no_space c)) = true ->
    Means (Hex q c) (hex_bytes (no_space c))
| Means_b64 q c ds pad vs : is_quote q = true -> no_space c = ds ++ pad -> b64_values ds = Some vs -> pad = [] \/ pad = [61] \/ pad = [61; 61] ->
    Nat.modulo (length ds + length pad) 4 = 0%nat ->
    Means (B64 q c) (b64_bytes vs).
Definition is64 (l : lit) : bool := match l with B64 _ _ => true | _ => false end.
(** Literals, each with its bytes and the rest of the file: a base64 literal with bytes comes before any other bytes. *)
Definition b64_first (ts : list (lit * list Z * list Z)) : Prop :=
  forall a l bs r b, ts = a ++ (l, bs, r) :: b -> is64 l = false \/ bs = [] \/ concat (map (fun t => snd (fst t)) a) = [].
