(** What printing a set, a map or a path writes. *)
From Coq Require Import ZArith Bool List.
From Verif Require Import Mach PrintModel.
Import ListNotations.
Local Open Scope Z_scope.

(** Texts with ", " between them. *)
Fixpoint commas (l : list (list Z)) : list Z := match l with [] => [] | [x] => x | x :: r => x ++ [44; 32] ++ commas r end.
(** "[A, C]" *)
Definition set_text (values : list (list Z * bool)) : list Z := [91] ++ commas (map fst (filter snd values)) ++ [93].
(** "{ A: 1, B: 2 }" *)
Definition map_text (entries : list (list Z * list Z)) : list Z := [123; 32] ++ commas (map (fun e => fst e ++ [58; 32] ++ snd e) entries) ++ [32; 125].
(** On a formatter as Formatter.init makes it ([idx] is 0, and nothing ever assigns it), [m] writes [t] after what is there; if the output does not take it all, it writes what fits and fails. *)
Definition writes (m : printer Z) (t : list Z) : Prop := forall f, idx f = 0 -> 0 <= room f ->
  written (snd (m f)) = written f ++ firstn (Z.to_nat (room f)) t /\ ((exists n, fst (m f) = Some n) <-> zlen t <= room f).
(** The number of bytes of some texts. *)
Definition total (l : list (list Z)) : Z := fold_right (fun x n => zlen x + n) 0 l.
(** [m] returns [n] whenever it returns. *)
Definition returns (m : printer Z) (n : Z) : Prop := forall f k, idx f = 0 -> 0 <= room f -> fst (m f) = Some k -> k = n.
