(** Model of the thread pools lib/std/threads/pool.c3 and lib/std/threads/fixed_pool.c3 under every schedule.
    What a thread does between taking and giving back the mutex is one step.  A thread that waits for the condition variable is woken by
    broadcast, by signal, or spuriously, and then has to take the mutex again.  Jobs end; locking and signalling do not fail.
    [fixed] tells FixedThreadPool from ThreadPool. *)
From Coq Require Import Arith List Bool.
Import ListNotations.

Section Pool.
Variable job : Type.

(** Where a worker is: at the top of its loop (pool.c3:107-109, fixed_pool.c3:133-135), in [wait], woken but without the mutex, in a job, or returned. *)
Inductive place := Top | Waiting | Woken | Running (j : job) | Done.
(** pool.c3:4-18, fixed_pool.c3:14-27.  The queue has its newest job first.  [pushed], [started] and [ended] record the history, newest first. *)
Record pool := Pool { fixed : bool; size : nat; queue : list job; num_threads : nat; stop : bool; stop_now : bool; workers : list place; pushed : list job; started : list job; ended : list job }.

(** pool.c3:30-43, fixed_pool.c3:40-62: [threads] is how many workers were created; fewer than [wanted] if creating one failed. *)
Definition init (fixed : bool) (size wanted threads : nat) : pool := Pool fixed size [] wanted false false (repeat Top threads) [] [] [].

Fixpoint put (i : nat) (w : place) (l : list place) : list place :=
  match l, i with [], _ => [] | _ :: r, O => w :: r | x :: r, S i => x :: put i w r end.
Definition wake (w : place) : place := match w with Waiting => Woken | w => w end.
Definition at_place (p : pool) (i : nat) (w : place) : pool :=
  Pool (fixed p) (size p) (queue p) (num_threads p) (stop p) (stop_now p) (put i w (workers p)) (pushed p) (started p) (ended p).
(** pool.c3:114-117, 122-125: the worker returns. *)
Definition leave (p : pool) (i : nat) : pool :=
  Pool (fixed p) (size p) (queue p) (num_threads p - 1) (stop p) (stop_now p) (put i Done (workers p)) (pushed p) (started p) (ended p).
(** pool.c3:110-134, fixed_pool.c3:143-166: the test of the inner loop, and taking a job. *)
Definition take (p : pool) (i : nat) : pool :=
  match queue p with
  | [] => if stop p then leave p i else at_place p i Waiting
  | j :: q => Pool (fixed p) (size p) q (num_threads p) (stop p) (stop_now p) (put i (Running j) (workers p)) (pushed p) (j :: started p) (ended p)
  end.
(** One step of worker [i]; None if it has none. *)
Definition work (p : pool) (i : nat) : option pool :=
  match nth_error (workers p) i with
  | Some Top => Some (if fixed p && stop_now p then leave p i else take p i)
  | Some Woken => Some (if stop_now p then leave p i else take p i)
  | Some (Running j) => Some (Pool (fixed p) (size p) (queue p) (num_threads p) (stop p) (stop_now p) (put i Top (workers p)) (pushed p) (started p) (j :: ended p))
  | Some Waiting | Some Done | None => None
  end.
(** pool.c3:82-102, fixed_pool.c3:107-127.  None if the queue is full: ThreadPool tries again, FixedThreadPool gives up. *)
Definition push (p : pool) (j : job) : option pool :=
  if length (queue p) <? size p then
    Some (Pool (fixed p) (size p) (j :: queue p) (num_threads p) (stop p) (stop_now p) (map wake (workers p)) (j :: pushed p) (started p) (ended p))
  else None.
(** pool.c3:63-68: the request to stop, [now] for destroy. *)
Definition request (p : pool) (now : bool) : pool :=
  Pool (fixed p) (size p) (queue p) (num_threads p) (stop p || negb now) (stop_now p || now) (map wake (workers p)) (pushed p) (started p) (ended p).
(** pool.c3:72-78: a turn of the waiting loop, which signals one waiting worker, if any. *)
Definition wake_one (p : pool) (i : nat) : option pool := match nth_error (workers p) i with Some Waiting => Some (at_place p i Woken) | _ => None end.
(** pool.c3:73-76: the loop ends, and with it the shutdown. *)
Definition returns (p : pool) : bool := num_threads p =? 0.

Inductive event := Work (i : nat) | Wake (i : nat) | Push (j : job) | Request (now : bool).
Definition step (p : pool) (e : event) : option pool :=
  match e with Work i => work p i | Wake i => wake_one p i | Push j => push p j | Request now => Some (request p now) end.
Fixpoint run (p : pool) (l : list event) : option pool :=
  match l with [] => Some p | e :: l => match step p e with Some p => run p l | None => None end end.
End Pool.
Arguments Top {job}. Arguments Waiting {job}. Arguments Woken {job}. Arguments Done {job}.
Arguments Work {job}. Arguments Wake {job}. Arguments Request {job}.
