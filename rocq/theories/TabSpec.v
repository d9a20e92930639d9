(** What the lookup tables promise, independently of how they store things. *)
From Coq Require Import ZArith Bool List Lia.
From Verif Require Import Mach.
Import ListNotations.
Open Scope Z_scope.

(** The value of the last write to [k] (0, NULL, when there is none). *)
Definition last_set (hist : list (Z * Z)) (k : Z) : Z :=
  fold_left (fun acc p => if fst p =? k then snd p else acc) hist 0.

(** The value of the first write to [k]. *)
Fixpoint first_set (hist : list (Z * Z)) (k : Z) : Z :=
  match hist with [] => 0 | (k', v) :: r => if k' =? k then v else first_set r k end.

(** The answer an operation in a history gives, as a function of the operations before it. *)
Fixpoint answers {A B} (f : list A -> A -> B) (done todo : list A) : list B :=
  match todo with [] => [] | x :: r => f done x :: answers f (done ++ [x]) r end.

(** Keys and values a caller may pass: non-NULL pointers. *)
Definition ptr_ok (p : Z) : Prop := 0 < p < 2 ^ 64.
Definition writes_ok (hist : list (Z * Z)) : Prop := Forall (fun p => ptr_ok (fst p) /\ ptr_ok (snd p)) hist.

(** Token type of the first insertion of a spelling. *)
Fixpoint first_type (hist : list (list Z * Z)) (text : list Z) : option Z :=
  match hist with
  | [] => None
  | (t, ty) :: r => if list_eq_dec Z.eq_dec t text then Some ty else first_type r text
  end.

(** Handles are equal exactly when the spellings are. *)
Definition handles_identify (hist : list (list Z * Z)) (results : list (Z * Z)) : Prop :=
  length results = length hist /\
  forall i j ti tj hi hj,
    nth_error hist i = Some ti -> nth_error hist j = Some tj ->
    nth_error results i = Some hi -> nth_error results j = Some hj ->
    (fst hi = fst hj <-> fst ti = fst tj).

(** The declarations made under [name], oldest first, given the names declared and the ids handed out. *)
Definition declared_as (names ids : list Z) (name : Z) : list Z :=
  map snd (filter (fun p => fst p =? name) (combine names ids)).

(** The (handle, type) answer the first insertion of a spelling got. *)
Fixpoint first_result (hist : list (list Z * Z)) (results : list (Z * Z)) (text : list Z) : option (Z * Z) :=
  match hist, results with
  | (t, _) :: r, x :: xs => if list_eq_dec Z.eq_dec t text then Some x else first_result r xs text
  | _, _ => None
  end.
