(** How far two names are apart, for the "did you mean" of a name that is not found. Text ends with a zero byte; reading past it is [Oob]. *)
From Coq Require Import ZArith List Bool.
From Verif Require Import Mach NameModel.
Import ListNotations.
Open Scope Z_scope.

(** sema_name_resolution.c:543-544: [score]. The [memset] clears a quarter of it only, so what is not written is arbitrary. Indices stay below 256, the size of
    both dimensions, as the lengths do (line 542). *)
Definition grid := Z -> Z -> Z.
Definition put (s : grid) (i j v : Z) : grid := fun x y => if (x =? i) && (y =? j) then v else s x y.
(** sema_name_resolution.c:545. *)
Fixpoint first_column (n : nat) (s : grid) : grid := let s := match n with O => s | S k => first_column k s end in put s (Z.of_nat n) 0 (Z.of_nat n).
(** sema_name_resolution.c:546. *)
Fixpoint first_row (n : nat) (s : grid) : grid := let s := match n with O => s | S k => first_row k s end in put s 0 (Z.of_nat n) (Z.of_nat n).
(** sema_name_resolution.c:551-561: one pass of the inner loop. *)
Definition cell (a b : text) (i j : Z) (s : grid) : Res grid :=
  bind (get a i) (fun ai =>
  bind (get b i) (fun bi =>
  let cost := if ai =? bi then 0 else 1 in
  let del := s i (j + 1) + 1 in
  let insert := s (i + 1) j + 1 in
  let substitute := s i j + cost in
  let min := if del <? insert then del else insert in
  let s := put s (i + 1) (j + 1) (if min <? substitute then min else substitute) in
  if (0 <? i) && (0 <? j) then
    bind (get b (j - 1)) (fun bp =>
    if ai =? bp then
      bind (get a (i - 1)) (fun ap =>
      bind (get b j) (fun bj =>
      if ap =? bj then
        let comp := s (i - 1) (j - 1) + 1 in
        Ok (if comp <? s (i + 1) (j + 1) then put s (i + 1) (j + 1) comp else s)
      else Ok s))
    else Ok s)
  else Ok s)).
(** sema_name_resolution.c:549-562: the inner loop, with [n] passes to go. *)
Fixpoint inner (n : nat) (a b : text) (i j : Z) (s : grid) : Res grid :=
  match n with O => Ok s | S k => bind (cell a b i j s) (fun s => inner k a b i (j + 1) s) end.
(** sema_name_resolution.c:547-563: the outer loop. *)
Fixpoint outer (n : nat) (a b : text) (b_len : nat) (i : Z) (s : grid) : Res grid :=
  match n with O => Ok s | S k => bind (inner b_len a b i 0 s) (fun s => outer k a b b_len (i + 1) s) end.
(** sema_name_resolution.c:537-565: [damerau_levenshtein_distance] of two names; [junk] is what the stack held. *)
Definition distance (junk : grid) (a b : text) : Res Z :=
  let a_len := length a in let b_len := length b in
  if Z.of_nat a_len =? 0 then Ok (Z.of_nat b_len) else
  if Z.of_nat b_len =? 0 then Ok (Z.of_nat a_len) else
  if (256 <=? Z.of_nat a_len) || (256 <=? Z.of_nat b_len) then Ok 256 else
  bind (outer a_len (a ++ [0]) (b ++ [0]) b_len 0 (first_row b_len (first_column a_len junk))) (fun s => Ok (s (Z.of_nat a_len) (Z.of_nat b_len))).
