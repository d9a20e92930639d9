(** What is asked of a generator of random numbers. *)
From Coq Require Import ZArith Bool List.
From Verif Require Import RndModel.
Import ListNotations.
Local Open Scope Z_scope.

Section Spec.
Context {S : Type} (g : gen S).
(** The state after [n] calls, and what the [n]-th call gives. *)
Fixpoint state_after (n : nat) (s : S) : S := match n with O => s | Datatypes.S n => state_after n (snd (g s)) end.
Definition output (n : nat) (s : S) : Z := fst (g (state_after n s)).
(** The state recurs exactly after the multiples of 2^k calls. *)
Definition period_is (k : Z) (s : S) : Prop := forall n : nat, state_after n s = s <-> (2 ^ k | Z.of_nat n).
(** The outputs of the calls from the [i]-th on, first one highest, as a number to base 2^b. *)
Fixpoint digits (b : Z) (s : S) (i n : nat) : Z := match n with O => 0 | Datatypes.S n => output i s * 2 ^ (b * Z.of_nat n) + digits b s (Datatypes.S i) n end.
(** The bytes of the calls from the [i]-th on. *)
Fixpoint bytes_from (size : nat) (s : S) (i n : nat) : list Z := match n with O => [] | Datatypes.S n => le_bytes size (output i s) ++ bytes_from size s (Datatypes.S i) n end.
End Spec.
(** A state of [k] bits; of four words of [k] bits. *)
Definition word_of (k s : Z) : Prop := 0 <= s < 2 ^ k.
Definition words_of (k : Z) (s : four) : Prop := let '(a, b, c, d) := s in word_of k a /\ word_of k b /\ word_of k c /\ word_of k d.
Definition byte_list (l : list Z) : Prop := Forall (fun x => 0 <= x < 256) l.
