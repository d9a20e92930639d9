(** The task queue that runs code generation, as a small-step machine in which any thread may take the next step. *)
From Coq Require Import List Arith Bool.
Import ListNotations.

Section T.
Context {task : Type}.

(** Where a worker is (src/utils/taskqueue.c:16-33, and 64-81 for Windows): about to lock; holding the lock and about to read the size; about to
    read the last task of a queue of the size read; about to pop; about to unlock; about to run the task; running it; about to
    unlock and stop; stopped. *)
Inductive pc := PLock | PRead | PTake (n : nat) | PPop (t : task) | PUnlock (t : task) | PRun (t : task) | PRunning (t : task) | PShut | PExit.
(** Where the caller is (taskqueue.c:35-51, 83-101): threads still to create, threads joined so far, returned, or stopped by error_exit. *)
Inductive mpc := MCreate (left : nat) | MJoin (joined : nat) | MDone | MFailed.

Record st := St { q : list task; lock : option nat; ths : list pc; main : mpc; started : list task; finished : list task }.

Definition init (tasks : list task) (threads : nat) : st := St tasks None [] (MCreate threads) [] [].

Fixpoint put {A} (l : list A) (i : nat) (x : A) : list A :=
  match l, i with [], _ => [] | _ :: r, O => x :: r | a :: r, S j => a :: put r j x end.

(** One step of worker [i]; None when it cannot move (waiting for the lock, stopped, or reading outside the queue). *)
Definition worker (s : st) (i : nat) : option st :=
  let goto p := put (ths s) i p in
  match nth_error (ths s) i with
  | Some PLock =>
      match lock s with
      | None => Some (St (q s) (Some i) (goto PRead) (main s) (started s) (finished s))
      | Some _ => None
      end
  | Some PRead =>
      Some (St (q s) (lock s) (goto (if Nat.eqb (length (q s)) 0 then PShut else PTake (length (q s)))) (main s) (started s) (finished s))
  | Some (PTake n) =>
      match nth_error (q s) (n - 1) with
      | Some t => Some (St (q s) (lock s) (goto (PPop t)) (main s) (started s) (finished s))
      | None => None
      end
  | Some (PPop t) => Some (St (removelast (q s)) (lock s) (goto (PUnlock t)) (main s) (started s) (finished s))
  | Some (PUnlock t) => Some (St (q s) None (goto (PRun t)) (main s) (started s) (finished s))
  | Some (PRun t) => Some (St (q s) (lock s) (goto (PRunning t)) (main s) (started s ++ [t]) (finished s))
  | Some (PRunning t) => Some (St (q s) (lock s) (goto PLock) (main s) (started s) (finished s ++ [t]))
  | Some PShut => Some (St (q s) None (goto PExit) (main s) (started s) (finished s))
  | Some PExit | None => None
  end.

Definition is_exit (p : pc) : bool := match p with PExit => true | _ => false end.

(** One step of the caller. With pthreads it joins the threads one after the other; on Windows one WaitForMultipleObjects call waits for all, except that
    it fails, and its result is not looked at, for more than MAXIMUM_WAIT_OBJECTS = 64 handles. *)
Definition caller (windows : bool) (s : st) : option st :=
  let go m := Some (St (q s) (lock s) (ths s) m (started s) (finished s)) in
  match main s with
  | MCreate (S k) => Some (St (q s) (lock s) (ths s ++ [PLock]) (MCreate k) (started s) (finished s))
  | MCreate O => go (MJoin 0)
  | MJoin k =>
      if windows then
        if Nat.ltb 64 (length (ths s)) || forallb is_exit (ths s) then go MDone else None
      else if Nat.eqb k (length (ths s)) then go MDone
      else match nth_error (ths s) k with Some PExit => go (MJoin (S k)) | _ => None end
  | MDone | MFailed => None
  end.

(** The schedule: whose turn it is; [CreateFails] is a thread creation that fails, which stops the compiler. *)
Inductive turn := Caller | CreateFails | Worker (i : nat).
Definition step (windows : bool) (s : st) (c : turn) : option st :=
  match c with
  | Caller => caller windows s
  | CreateFails => match main s with MCreate (S k) => Some (St (q s) (lock s) (ths s) MFailed (started s) (finished s)) | _ => None end
  | Worker i => worker s i
  end.
Fixpoint run (windows : bool) (s : st) (sched : list turn) : option st :=
  match sched with
  | [] => Some s
  | c :: r => match step windows s c with Some s' => run windows s' r | None => None end
  end.
End T.
Arguments pc : clear implicits.
Arguments st : clear implicits.
