(** What a reader, a writer and a queue of bytes must do, stated without the code. *)
From Coq Require Import ZArith Bool List.
From Verif Require Import IoModel.
Import ListNotations.

(** The answers of a history of calls. *)
Section Run.
  Context {S O A : Type} (step : O -> S -> out A * S).
  Fixpoint run (ops : list O) (s : S) : list (out A) * S :=
    match ops with
    | [] => ([], s)
    | o :: ops => let (r, s) := step o s in let (rs, s) := run ops s in (r :: rs, s)
    end.
End Run.

(** A stream that hands out at least one byte when it is asked for one and has one. *)
Definition fair (s : source) : Prop := Forall (le 1) (plan s).

(** An answer to one call: not more than was asked for, and something if something was asked for. *)
Definition fits (o : rop) (l : list Z) : Prop := match o with Read m => length l <= m /\ (0 < m -> l <> []) | ReadByte => length l = 1 end.
(** The answers hand out [data] in order, without gaps or repetitions, and EOF is said only when all of it has been handed out;
    if [again] also everything after the first EOF is EOF (or the answer to a request for nothing). *)
Fixpoint honest (again : bool) (data : list Z) (ops : list rop) (rs : list (out (list Z))) : Prop :=
  match ops, rs with
  | [], [] => True
  | o :: ops, Got l :: rs => fits o l /\ exists more, data = l ++ more /\ honest again more ops rs
  | _ :: ops, Fault EOF :: rs => data = [] /\ (again = true -> honest again [] ops rs)
  | _, _ => False
  end.

(** The bytes answered. *)
Fixpoint answered (rs : list (out (list Z))) : list Z :=
  match rs with [] => [] | Got l :: rs => l ++ answered rs | _ :: rs => answered rs end.
(** The bytes written by a history of calls, and the counts its calls must answer. *)
Definition bytes_of (o : wop) : list Z := match o with Write l => l | WriteByte c => [c] | Flush => [] end.
Definition written (ops : list wop) : list Z := concat (map bytes_of ops).
Definition all_accepted (ops : list wop) : list (out nat) := map (fun o => Got (length (bytes_of o))) ops.

(** A queue whose last byte handed out may be put back. *)
Fixpoint fifo (queue : list Z) (last : option Z) (ops : list bop) (rs : list (out (list Z))) : Prop :=
  match ops, rs with
  | [], [] => True
  | BWrite l :: ops, Got [] :: rs => fifo (queue ++ l) last ops rs
  | BWriteByte c :: ops, Got [] :: rs => fifo (queue ++ [c]) last ops rs
  | BRead m :: ops, r :: rs =>
    match queue with
    | [] => r = Fault EOF /\ fifo [] None ops rs
    | _ => r = Got (firstn m queue) /\
           fifo (skipn m queue) (match rev (firstn m queue) with [] => None | c :: _ => Some c end) ops rs
    end
  | BReadByte :: ops, r :: rs =>
    match queue with [] => r = Fault EOF /\ fifo [] None ops rs | c :: q => r = Got [c] /\ fifo q (Some c) ops rs end
  | BPushback :: ops, r :: rs =>
    match last with None => r = Fault EOF /\ fifo queue None ops rs | Some c => r = Got [] /\ fifo (c :: queue) None ops rs end
  | _, _ => False
  end.
Definition put_of (o : bop) : nat := match o with BWrite l => length l | BWriteByte _ => 1 | _ => 0 end.
Fixpoint put_total (ops : list bop) : nat := match ops with [] => 0 | o :: ops => put_of o + put_total ops end.

(** Pieces of text without the delimiter, each followed by it. *)
Definition joined (d : Z) (ps : list (list Z)) : list Z := concat (map (fun p => p ++ [d]) ps).
(** The first line of a text: up to the first line feed, which is dropped, and without carriage returns; and what follows. *)
Fixpoint first_line (l : list Z) : list Z * list Z :=
  match l with
  | [] => ([], [])
  | c :: r => if (c =? 10)%Z then ([], r) else let (a, b) := first_line r in ((if (c =? 13)%Z then a else c :: a), b)
  end.
(** A writer over a fixed buffer that accepts a write when [room_for used n]: its answers and what it then holds. *)
Fixpoint fixed_answers (room_for : nat -> nat -> bool) (used : nat) (ops : list wop) : list (out nat) * list Z :=
  match ops with
  | [] => ([], [])
  | o :: ops => let l := bytes_of o in
    if match o with Flush => true | _ => room_for used (length l) end
    then let (rs, v) := fixed_answers room_for (used + length l) ops in (Got (length l) :: rs, l ++ v)
    else let (rs, v) := fixed_answers room_for used ops in (Fault OUT_OF_SPACE :: rs, v)
  end.
