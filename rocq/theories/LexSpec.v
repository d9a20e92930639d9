(** What the lexer theorems refer to, independent of the lexer. *)
From Coq Require Import ZArith Bool List Lia.
Import ListNotations.
Open Scope Z_scope.

(** A source byte: no NUL, and no carriage return (those are removed when the file is loaded). *)
Definition src_byte (b : Z) : Prop := 1 <= b <= 255 /\ b <> 13.
Definition newlines (s : list Z) : Z := Z.of_nat (length (filter (fun c => c =? 10) s)).

(** ** Comments *)
(** Reading left to right, a text is a sequence of "/*", "*/" and other characters. *)
Inductive piece := Open | Close | Other (c : Z).
Fixpoint pieces (fuel : nat) (s : list Z) : list piece :=
  match fuel, s with
  | S f, a :: b :: r =>
    if (a =? 47) && (b =? 42) then Open :: pieces f r
    else if (a =? 42) && (b =? 47) then Close :: pieces f r
    else Other a :: pieces f (b :: r)
  | S f, [a] => [Other a]
  | _, _ => []
  end.
Definition piece_text (p : piece) : list Z := match p with Open => [47; 42] | Close => [42; 47] | Other c => [c] end.
Definition text_of (ps : list piece) : list Z := concat (map piece_text ps).
(** How deep the nesting is after these pieces, starting inside one comment. *)
Fixpoint depth (d : Z) (ps : list piece) : Z :=
  match ps with
  | [] => d
  | Open :: r => depth (d + 1) r
  | Close :: r => depth (d - 1) r
  | Other _ :: r => depth d r
  end.

(** ** String literals *)
Inductive item :=
| Plain (c : Z)                 (* a character that stands for itself *)
| Simple (c : Z)                (* \n and the like: [c] is the letter *)
| HexByte (ds : list Z)         (* \x and two hexadecimal digits *)
| Uni (ds : list Z)             (* \u and four *)
| UniLong (ds : list Z).        (* \U and eight *)
Definition hexdigit (c : Z) : option Z :=
  if (48 <=? c) && (c <=? 57) then Some (c - 48)
  else if (97 <=? c) && (c <=? 102) then Some (c - 97 + 10)
  else if (65 <=? c) && (c <=? 70) then Some (c - 65 + 10) else None.
Fixpoint hexnum (acc : Z) (ds : list Z) : option Z :=
  match ds with [] => Some acc | d :: r => match hexdigit d with Some v => hexnum (acc * 16 + v) r | None => None end end.
(** The letters after a backslash and the byte each stands for. *)
Definition simple_escapes : list (Z * Z) :=
  [(97, 7); (98, 8); (101, 27); (102, 12); (110, 10); (114, 13); (116, 9); (118, 11); (39, 39); (34, 34); (92, 92); (48, 0)].
(** UTF-8 (RFC 3629). *)
Definition utf8 (u : Z) : list Z :=
  if u <=? 127 then [u]
  else if u <=? 2047 then [192 + u / 64; 128 + u mod 64]
  else if u <=? 65535 then [224 + u / 4096; 128 + u / 64 mod 64; 128 + u mod 64]
  else [240 + u / 262144; 128 + u / 4096 mod 64; 128 + u / 64 mod 64; 128 + u mod 64].
(** The source text of an item. *)
Definition render (i : item) : list Z :=
  match i with
  | Plain c => [c]
  | Simple c => [92; c]
  | HexByte ds => 92 :: 120 :: ds
  | Uni ds => 92 :: 117 :: ds
  | UniLong ds => 92 :: 85 :: ds
  end.
(** The bytes an item stands for; [None] when it is not an item at all. *)
Definition meaning (i : item) : option (list Z) :=
  match i with
  | Plain c => if (c =? 34) || (c =? 92) || (c =? 10) || (c =? 0) then None else Some [c]
  | Simple c => match find (fun p => fst p =? c) simple_escapes with Some p => Some [snd p] | None => None end
  | HexByte ds => if Nat.eqb (length ds) 2 then match hexnum 0 ds with Some v => Some [v] | None => None end else None
  | Uni ds => if Nat.eqb (length ds) 4 then match hexnum 0 ds with Some v => Some (utf8 v) | None => None end else None
  | UniLong ds => if Nat.eqb (length ds) 8 then match hexnum 0 ds with Some v => Some (utf8 v) | None => None end else None
  end.
Fixpoint meanings (is : list item) : option (list Z) :=
  match is with
  | [] => Some []
  | i :: r => match meaning i, meanings r with Some a, Some b => Some (a ++ b) | _, _ => None end
  end.

(** ** Bidirectional control characters *)
(** Embeddings U+202A, B, D, E are ended by U+202C; isolates U+2066, 7, 8 by U+2069. *)
Fixpoint markers (s : list Z) : list Z :=
  match s with
  | [] => []
  | a :: r =>
    (match r with
     | b :: c :: _ =>
       if (a =? 226) && (b =? 128) then
         (if (c =? 170) || (c =? 171) || (c =? 173) || (c =? 174) then [1] else if c =? 172 then [-1] else [])
       else if (a =? 226) && (b =? 129) then (if (c =? 166) || (c =? 167) || (c =? 168) then [1] else if c =? 169 then [-1] else [])
       else []
     | _ => []
     end) ++ markers r
  end.
(** Every one opened is closed: no prefix closes more than it opens, and in the end all are closed. *)
Definition sum (l : list Z) : Z := fold_right Z.add 0 l.
Definition Balanced (ms : list Z) : Prop := (forall a b, ms = a ++ b -> 0 <= sum a) /\ sum ms = 0.

(** ** Operators: the punctuation tokens of src/compiler/tokens.c:15-142 that stand alone
    (without "$", "#", "$$" and "_", which start other tokens). *)
Definition operators : list (list Z) :=
  [[38]; [64]; [126]; [124]; [94]; [58]; [44]; [47]; [46]; [59]; [61]; [62]; [123]; [91]; [60]; [40]; [45]; [37]; [33]; [43]; [63];
   [125]; [93]; [41]; [42];
   [38; 38]; [45; 62]; [38; 61]; [124; 61]; [94; 61]; [38; 38; 38]; [124; 124; 124]; [43; 43; 43]; [47; 61]; [46; 46]; [63; 58];
   [61; 61]; [62; 61]; [61; 62]; [60; 61]; [91; 60]; [45; 61]; [45; 45]; [42; 61]; [37; 61]; [33; 61]; [124; 124]; [43; 61]; [43; 43];
   [63; 63]; [62; 93]; [58; 58]; [60; 60]; [62; 62]; [33; 33]; [46; 46; 46]; [60; 60; 61]; [62; 62; 61]].
Definition prefix_of (p s : list Z) : Prop := exists r, s = p ++ r.

(** ** Identifiers *)
Inductive ident_class := Lower | Upper | Mixed.
(** After leading underscores and a letter: small initial, all capitals, or capital initial with a small letter. *)
Definition is_small (c : Z) : bool := (97 <=? c) && (c <=? 122).
Definition is_capital (c : Z) : bool := (65 <=? c) && (c <=? 90).
Definition is_ident_char (c : Z) : bool := is_small c || is_capital c || ((48 <=? c) && (c <=? 57)) || (c =? 95).
Fixpoint class_of (s : list Z) : option ident_class :=
  match s with
  | [] => None
  | c :: r =>
    if c =? 95 then class_of r
    else if is_small c then Some Lower
    else if is_capital c then Some (if existsb is_small r then Mixed else Upper)
    else None
  end.

(** * Source clean-up *)
(** A text without its leading UTF-8 byte-order mark. *)
Definition no_bom (s : list Z) : list Z :=
  match s with a :: b :: c :: r => if (a =? 239) && (b =? 187) && (c =? 191) then r else s | _ => s end.

(** A file buffer: source bytes and the closing NUL. *)
Definition live (l : list Z) : Prop := exists t, l = t ++ [0] /\ Forall src_byte t.
(** Of the pieces [all] read from inside [d] comments, [ps] are inside and the first [Close] after them is the one that ends the last. *)
Definition closes (d : Z) (ps qs : list piece) (all : list piece) : Prop :=
  all = ps ++ Close :: qs /\ depth d ps = 1 /\ forall a b, ps = a ++ b -> 1 <= depth d a.
(** No byte of 128 or more among the nine characters after a backslash. *)
Definition hi_ok (l : list Z) : Prop := forall u v, l = u ++ 92 :: v -> Forall (fun c => c < 128) (firstn 9 v).
(** [o] is the longest operator the text [s] starts with. *)
Definition longest (o s : list Z) : Prop := In o operators /\ prefix_of o s /\ forall o', In o' operators -> prefix_of o' s -> (length o' <= length o)%nat.
Definition starts (a : Z) (o : list Z) : bool := match o with x :: _ => x =? a | [] => false end.
(** The source text of a sequence of items. *)
Definition text (is : list item) : list Z := concat (map render is).
(** The escapes that do what the documentation says. *)
Definition exact (i : item) : Prop :=
  match i with
  | HexByte ds => forall v, hexnum 0 ds = Some v -> v < 128
  | UniLong ds => forall v, hexnum 0 ds = Some v -> v <= 1114111
  | _ => True
  end.
(** *** Escaping any bytes *)
Definition escape (b : Z) : item :=
  if b =? 0 then Simple 48 else if b =? 10 then Simple 110 else if b =? 13 then Simple 114 else if b =? 34 then Simple 34 else if b =? 92 then Simple 92 else Plain b.
(** ** Raw strings: a back-quote is doubled, everything else stands for itself. *)
Definition raw_text (s : list Z) : list Z := flat_map (fun c => if c =? 96 then [96; 96] else [c]) s.
(** ** Cleaning the file buffer *)
Definition nocr (s : list Z) : list Z := filter (fun c => negb (c =? 13)) s.
(** ** Character literals: an item that stands for one byte. *)
Definition char_item (i : item) : Prop :=
  match i with
  | Plain c => 1 <= c < 128 /\ c <> 39 /\ c <> 92 /\ c <> 10
  | Simple _ | HexByte _ => meaning i <> None
  | _ => False
  end.
Definition item_byte (i : item) : Z :=
  match i with
  | Plain c => c
  | Simple c => match find (fun p => fst p =? c) simple_escapes with Some p => snd p | None => 0 end
  | HexByte ds => match hexnum 0 ds with Some v => v | None => 0 end
  | _ => 0
  end.
(** Bytes as one big-endian number. *)
Fixpoint be (acc : Z) (bs : list Z) : Z := match bs with [] => acc | b :: r => be (acc * 256 + b) r end.
