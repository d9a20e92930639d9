(** The linked list is specified by the same sequence operations as List (ListSpec.v). *)
From Coq Require Import ZArith Bool List.
From Verif Require Import Mach LinkedModel.
From Verif Require ListSpec.
Import ListSpec.
Import ListNotations.
Open Scope Z_scope.

Section Spec.
Context {A : Type}.
Variable eqb : A -> A -> bool.
(** The operations a linked list has. *)
Definition linked_op (o : lop A) : bool :=
  match o with
  | LPush _ | LPushFront _ | LPop | LPopFirst | LClear | LFree | LFirst | LLast | LLen | LGet _ | LSet _ _ | LRemoveAt _ | LInsertAt _ _ | LRemoveItem _
  | LRemoveLast | LRemoveFirst | LRemoveFirstItem _ | LRemoveLastItem _ => true
  | _ => false
  end.
Definition unit_ (r : Res (ll A)) : Res (lout A * ll A) := s <- r ;; Ok (VUnit, s).
Definition keep (s : ll A) (r : Res (lout A)) : Res (lout A * ll A) := v <- r ;; Ok (v, s).
Definition k_step (fuel : nat) (s : ll A) (o : lop A) : Res (lout A * ll A) :=
  match o with
  | LPush x => unit_ (push s x)
  | LPushFront x => unit_ (push_front s x)
  | LPop => '(v, s) <- pop s ;; Ok (VItem v, s)
  | LPopFirst => '(v, s) <- pop_front s ;; Ok (VItem v, s)
  | LClear | LFree => unit_ (clear fuel s)
  | LFirst => keep s (v <- first s ;; Ok (VItem v))
  | LLast => keep s (v <- last s ;; Ok (VItem v))
  | LLen => Ok (VNum (size s), s)
  | LGet i => keep s (x <- get_at s i ;; Ok (VItem (Some x)))
  | LSet i x => unit_ (set_at s i x)
  | LRemoveAt i => unit_ (remove_at s i)
  | LInsertAt i x => unit_ (insert_at s i x)
  | LRemoveItem x => '(n, s) <- remove eqb fuel s x ;; Ok (VNum n, s)
  | LRemoveLast => '(b, s) <- remove_last s ;; Ok (VBool b, s)
  | LRemoveFirst => '(b, s) <- remove_first s ;; Ok (VBool b, s)
  | LRemoveFirstItem x => '(b, s) <- remove_first_match eqb fuel s x ;; Ok (VBool b, s)
  | LRemoveLastItem x => '(b, s) <- remove_last_match eqb fuel s x ;; Ok (VBool b, s)
  | _ => Oob
  end.
Fixpoint k_run (fuel : nat) (s : ll A) (os : list (lop A)) : Res (list (lout A) * ll A) :=
  match os with
  | [] => Ok ([], s)
  | o :: t => '(v, s) <- k_step fuel s o ;; '(vs, s) <- k_run fuel s t ;; Ok (v :: vs, s)
  end.
(** Reading the list forwards and backwards. *)
Fixpoint values (dir : node A -> Z) (fuel : nat) (s : ll A) (p : Z) : Res (list A) :=
  match fuel with
  | O => Fuel
  | S f => if p =? 0 then Ok [] else n <- load s p ;; t <- values dir f s (dir n) ;; Ok (value n :: t)
  end.
(** Exactly [n] nodes are allocated. *)
Definition live (s : ll A) (n : Z) : Prop := exists ps, NoDup ps /\ zlen ps = n /\ forall p, heap s p <> None <-> In p ps.
End Spec.
