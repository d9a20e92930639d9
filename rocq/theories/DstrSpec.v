(** A dynamic string is the sequence of its bytes. *)
From Coq Require Import ZArith List Bool.
From Verif Require Import LexSpec UtfSpec StrSpec DstrModel.
Import ListNotations.
Open Scope Z_scope.

(** The first n elements, and the others. *)
Definition take (n : Z) (t : list Z) : list Z := firstn (Z.to_nat n) t.
Definition drop (n : Z) (t : list Z) : list Z := skipn (Z.to_nat n) t.
(** The text after an operation on a text. *)
Definition after (t : list Z) (o : op) : list Z :=
  match o with
  | AppendChars u => t ++ u
  | AppendChar c => t ++ [c]
  | AppendRepeat c n => t ++ repeat c (Z.to_nat n)
  | AppendChar32 c => t ++ utf8 c
  | AppendUtf32 cs => t ++ utf8s cs
  | InsertChars i u => take i t ++ u ++ drop i t
  | InsertChar i c => take i t ++ [c] ++ drop i t
  | InsertChar32 i c => take i t ++ utf8 c ++ drop i t
  | InsertUtf32 i cs => take i t ++ utf8s cs ++ drop i t
  | Delete i n => take i t ++ drop (i + n) t
  | Chop n => take n t
  | Clear => []
  | SetAt i c => take i t ++ [c] ++ drop (i + 1) t
  | ReplaceChar a b => map (fun c => if c =? a then b else c) t
  | Reverse => rev t
  | Reserve _ | ZstrView => t
  end.
(** What the operations require: the declared conditions, and that the string stays below 2^62 bytes. *)
Definition code_point (c : Z) : Prop := 0 <= c <= 1114111.
Definition allowed (t : list Z) (o : op) : Prop :=
  len (after t o) < 2 ^ 62 /\
  match o with
  | AppendRepeat _ n => 0 <= n
  | AppendChar32 c => code_point c
  | AppendUtf32 cs => Forall code_point cs
  | InsertChars i _ | InsertChar i _ => 0 <= i <= len t
  | InsertChar32 i c => 0 <= i <= len t /\ code_point c
  | InsertUtf32 i cs => 0 <= i <= len t /\ Forall code_point cs
  | Delete i n => 0 <= i < len t /\ 0 <= n /\ i + n <= len t
  | Chop n => 0 <= n <= len t
  | SetAt i _ => 0 <= i < len t
  | ReplaceChar _ _ => t <> []
  | Reserve n => 0 <= n /\ len t + n < 2 ^ 62
  | ZstrView => len t + 1 < 2 ^ 62
  | _ => True
  end.
Fixpoint history (t : list Z) (os : list op) : Prop := match os with [] => True | o :: r => allowed t o /\ history (after t o) r end.
Fixpoint text_of (t : list Z) (os : list op) : list Z := match os with [] => t | o :: r => text_of (after t o) r end.

(** Some standings of the needle, none overlapping another, are replaced. *)
Definition replaced_some (needle repl s t : list Z) : Prop := exists ps, s = glue needle ps /\ t = glue repl ps.
(** All are, found from the left. *)
Definition replaced_all (needle repl s t : list Z) : Prop := exists ps, Cut needle s ps /\ t = glue repl ps.

(** The strings a program can make, with the text each holds. *)
Inductive built : dstring -> list Z -> Prop :=
| built_null : built None []
| built_capacity n : 0 <= n < 2 ^ 62 -> built (Some (with_capacity n)) []
| built_new t b : len t < 2 ^ 62 -> new t = Mach.Ok b -> built (Some b) t
| built_op d t o d' : built d t -> allowed t o -> apply d o = Mach.Ok d' -> built d' (after t o)
| built_copy d t b : built d t -> copy d = Mach.Ok b -> built (Some b) t
| built_concat d t e u r : built d t -> built e u -> len t + len u < 2 ^ 62 -> concat d e = Mach.Ok r -> built r (t ++ u)
| built_join ss j r : len j * Z.of_nat (length ss) + len (List.concat ss) < 2 ^ 62 -> djoin ss j = Mach.Ok r -> built r (glue j ss)
| built_replace d s needle repl r t : built d s -> needle <> [] -> len s * (len repl + 1) < 2 ^ 62 ->
    replace d needle repl = Mach.Ok r -> str_view r = Mach.Ok t -> built r t.
