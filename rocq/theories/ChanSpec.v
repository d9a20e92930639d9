(** What a channel should be: a bounded FIFO queue, used one operation at a time. *)
From Coq Require Import List Arith Bool.
From Verif Require Import ChanModel.
Import ListNotations.

(** How many wake-ups of a schedule were spurious. *)
Definition spurious (sched : list turn) : nat := length (filter (fun c => match c with Spurious _ => true | _ => false end) sched).

Section S.
Context {V : Type}.

(** One operation on the queue [b], at most [size] long, with flag [c] for closed, and the result it must give; None if the operation would have to wait. *)
Definition queue_op (size : nat) (b : list V) (c : bool) (o : op V) : option (res V * list V * bool) :=
  match o with
  | Push v => if c then Some (RClosed, b, c) else if length b <? size then Some (ROk, b ++ [v], c) else None
  | Pop => match b with x :: b' => Some (RVal x, b', c) | [] => if c then Some (RClosed, [], c) else None end
  | Close => Some (ROk, b, true)
  end.
(** The queue after a history of operations and results, starting from an empty queue; None if the history is not one of a queue. *)
Inductive legal (size : nat) : list (nat * op V * res V) -> list V -> bool -> Prop :=
| legal_nil : legal size [] [] false
| legal_snoc : forall h b c i o r b' c', legal size h b c -> queue_op size b c o = Some (r, b', c') -> legal size (h ++ [(i, o, r)]) b' c'.

(** The operations of thread [i] in a history. *)
Definition of_thread (i : nat) (h : list (nat * op V * res V)) : list (op V * res V) :=
  flat_map (fun e => if Nat.eqb (fst (fst e)) i then [(snd (fst e), snd e)] else []) h.
(** The values whose push succeeded, and the values popped, in the order of the history. *)
Definition pushed (h : list (nat * op V * res V)) : list V := flat_map (fun e => match e with (_, Push v, ROk) => [v] | _ => [] end) h.
Definition popped (h : list (nat * op V * res V)) : list V := flat_map (fun e => match e with (_, Pop, RVal v) => [v] | _ => [] end) h.

Definition idle (t : thread V) : Prop := at_ t = Idle.
Definition finished (t : thread V) : Prop := at_ t = Idle /\ prog t = [].
Definition sending (t : thread V) : Prop := exists v, at_ t = Asleep (Push v).
Definition receiving (t : thread V) : Prop := at_ t = Asleep Pop.
End S.
