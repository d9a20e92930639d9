(** What a walk over a string is: a cursor between its code points. *)
From Coq Require Import ZArith Bool List.
From Verif Require Import Mach SiterModel.
Import ListNotations.
Local Open Scope Z_scope.

Inductive iop := INext | IPeek | IHasNext | IReset.
Inductive iout := OChar (r : char_result) | OBool (b : bool) | OUnit.
Definition char_at (us : list Z) (n : nat) : char_result := match nth_error us n with Some u => Char u | None => NoMore end.
(** The cursor stands before the [n]th code point. *)
Definition cursor (us : list Z) (n : nat) (o : iop) : iout * nat :=
  match o with
  | INext => (OChar (char_at us n), if (n <? length us)%nat then S n else n)
  | IPeek => (OChar (char_at us n), n)
  | IHasNext => (OBool (n <? length us)%nat, n)
  | IReset => (OUnit, O)
  end.
Fixpoint cursor_run (us : list Z) (n : nat) (os : list iop) : list iout :=
  match os with [] => [] | o :: t => let (v, n) := cursor us n o in v :: cursor_run us n t end.

(** The operations of the model. *)
Definition i_step (it : siter) (o : iop) : Res (iout * siter) :=
  match o with
  | INext => '(r, it) <- next it ;; Ok (OChar r, it)
  | IPeek => r <- peek it ;; Ok (OChar r, it)
  | IHasNext => Ok (OBool (has_next it), it)
  | IReset => Ok (OUnit, reset it)
  end.
Fixpoint i_run (it : siter) (os : list iop) : Res (list iout) :=
  match os with [] => Ok [] | o :: t => '(v, it) <- i_step it o ;; vs <- i_run it t ;; Ok (v :: vs) end.
