(** What a priority queue is: a bag of elements, of which the first in the order comes out. *)
From Coq Require Import ZArith List Permutation.
From Verif Require Import Mach PqModel.
Import ListNotations.
Open Scope Z_scope.

(** [before] is a strict order in which any two elements can be compared (ties allowed). *)
Definition strict_weak {A} (before : A -> A -> bool) : Prop :=
  (forall a, before a a = false) /\ (forall a b c, before a b = true -> before b c = true -> before a c = true) /\
  (forall a b c, before a b = false -> before b c = false -> before a c = false).
(** No element of [l] comes before [x]. *)
Definition is_first {A} (before : A -> A -> bool) (x : A) (l : list A) : Prop := forall y, In y l -> before y x = false.

Inductive qop (A : Type) := QPush (x : A) | QPop | QFirst | QRemove (i : Z).
Arguments QPush {A} x.
Arguments QPop {A}.
Arguments QFirst {A}.
Arguments QRemove {A} i.
Definition q_step {A} (before : A -> A -> bool) (fuel : nat) (l : list A) (o : qop A) : Res (option A * list A) :=
  match o with
  | QPush x => l <- pq_push before fuel l x ;; Ok (None, l)
  | QPop => pq_pop before fuel l
  | QFirst => Ok (pq_first l, l)
  | QRemove i => l <- pq_remove_at before fuel l i ;; Ok (None, l)
  end.
Fixpoint q_run {A} (before : A -> A -> bool) (fuel : nat) (l : list A) (os : list (qop A)) : Res (list (option A) * list A) :=
  match os with
  | [] => Ok ([], l)
  | o :: t => '(v, l) <- q_step before fuel l o ;; '(vs, l) <- q_run before fuel l t ;; Ok (v :: vs, l)
  end.
(** The results of a history on a bag. *)
Inductive bag_run {A} (before : A -> A -> bool) : list A -> list (qop A) -> list (option A) -> Prop :=
| bag_nil b : bag_run before b [] []
| bag_push b x os vs : bag_run before (x :: b) os vs -> bag_run before b (QPush x :: os) (None :: vs)
| bag_pop b x b' os vs : Permutation b (x :: b') -> is_first before x b -> bag_run before b' os vs -> bag_run before b (QPop :: os) (Some x :: vs)
| bag_pop_empty os vs : bag_run before [] os vs -> bag_run before [] (QPop :: os) (None :: vs)
| bag_first b x os vs : In x b -> is_first before x b -> bag_run before b os vs -> bag_run before b (QFirst :: os) (Some x :: vs)
| bag_first_empty os vs : bag_run before [] os vs -> bag_run before [] (QFirst :: os) (None :: vs)
| bag_remove b x b' os vs : Permutation b (x :: b') -> is_first before x b -> bag_run before b' os vs -> bag_run before b (QRemove 0 :: os) (None :: vs).
(** Only the first element is removed by index, and only from a queue that has one. *)
Fixpoint removes_first {A} (n : nat) (os : list (qop A)) : Prop :=
  match os with
  | [] => True
  | QPush _ :: t => removes_first (S n) t
  | QPop :: t => removes_first (pred n) t
  | QFirst :: t => removes_first n t
  | QRemove i :: t => i = 0 /\ n <> 0%nat /\ removes_first (pred n) t
  end.
