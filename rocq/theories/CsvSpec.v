(** What a text of rows is. *)
From Coq Require Import ZArith Bool List.
From Verif Require Import Mach StrSpec.
Import ListNotations.
Local Open Scope Z_scope.

(** Lines, each with how it ends: CR LF or LF. *)
Definition line_end (cr : bool) : list Z := if cr then [13; 10] else [10].
Definition text_of (lines : list (list Z * bool)) : list Z := concat (map (fun l => fst l ++ line_end (snd l)) lines).
Definition plain (l : list Z * bool) : Prop := ~ In 10 (fst l) /\ ~ In 13 (fst l) /\ zlen (fst l) < 2 ^ 63.
(** Each row is its line cut at the separators. *)
Definition cut_at (separator : list Z) (lines : list (list Z * bool)) (rows : list (list (list Z))) : Prop := Forall2 (fun l r => Cut separator (fst l) r) lines rows.
