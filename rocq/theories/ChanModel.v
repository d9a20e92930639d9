(** std::thread::channel::BufferedChannel (lib/std/threads/buffered_channel.c3) used by any number of threads, as a machine in which any thread
    may take the next step. *)
From Coq Require Import List Arith Bool.
Import ListNotations.

Section C.
Context {V : Type}.

(** The operations and what they return. *)
Inductive op := Push (v : V) | Pop | Close.
Inductive res := ROk | RVal (v : V) | RClosed.

(** Where a thread is: outside the channel; about to take the channel's mutex; about to evaluate the condition of the `while`; asleep in
    ConditionVariable.wait (which has released the mutex); woken but without the mutex yet; past the loop; about to signal; about to release the mutex and
    return. *)
Inductive pc := Idle | AtLock (o : op) | Check (o : op) | Asleep (o : op) | Woken (o : op) | Act (o : op) | Signal (o : op) (r : res) | Release (o : op) (r : res).
(** A thread: the operations it will still call, where it is, and the operations that have returned with their results. *)
Record thread := Th { prog : list op; at_ : pc; hist : list (op * res) }.

(** The channel (lines 5-22). [log] is not in the code: it records the operations in the order in which they take effect. Counters are
    unbounded here and `usz` in the code; [elems], [sendx], [readx] stay at most [size] and the waiting counters at most the number of threads. *)
Record st := St {
  size : nat; elems : nat; sendx : nat; readx : nat; send_waiting : nat; read_waiting : nat; closed : bool; buf : list V;
  mu : option nat; ths : list thread; log : list (nat * op * res) }.

(** BufferedChannel.init (lines 24-46) for a buffer holding anything, and threads that have their programs to run. *)
Definition init (buf0 : list V) (progs : list (list op)) : st :=
  St (length buf0) 0 0 0 0 0 false buf0 None (map (fun p => Th p Idle []) progs) [].

Fixpoint put {A} (l : list A) (i : nat) (x : A) : list A :=
  match l, i with [], _ => [] | _ :: r, O => x :: r | a :: r, S j => a :: put r j x end.

Definition set_ths (s : st) l := St (size s) (elems s) (sendx s) (readx s) (send_waiting s) (read_waiting s) (closed s) (buf s) (mu s) l (log s).
Definition set_mu (s : st) m := St (size s) (elems s) (sendx s) (readx s) (send_waiting s) (read_waiting s) (closed s) (buf s) m (ths s) (log s).
Definition set_waiting (s : st) a b := St (size s) (elems s) (sendx s) (readx s) a b (closed s) (buf s) (mu s) (ths s) (log s).
Definition goto (s : st) i (t : thread) p := set_ths s (put (ths s) i (Th (prog t) p (hist t))).
Definition add_log (s : st) i o r := St (size s) (elems s) (sendx s) (readx s) (send_waiting s) (read_waiting s) (closed s) (buf s) (mu s) (ths s) (log s ++ [(i, o, r)]).

(** Whether a thread sleeps on `send_cond` or on `read_cond`. *)
Definition sleeps_send (t : thread) : bool := match at_ t with Asleep (Push _) => true | _ => false end.
Definition sleeps_read (t : thread) : bool := match at_ t with Asleep Pop => true | _ => false end.
Definition wake (t : thread) : thread := match at_ t with Asleep o => Th (prog t) (Woken o) (hist t) | _ => t end.

(** ConditionVariable.signal: wakes one of the sleeping threads, [j]; does nothing if there is none. *)
Definition signal (sleeps : thread -> bool) (s : st) (j : nat) : option st :=
  match nth_error (ths s) j with
  | Some t => if sleeps t then Some (set_ths s (put (ths s) j (wake t))) else if existsb sleeps (ths s) then None else Some s
  | None => if existsb sleeps (ths s) then None else Some s
  end.

(** push lines 75-95, past the loop: refuse if closed, else store the value, move the index, count. *)
Definition act_push (s : st) (i : nat) (t : thread) (v : V) : option st :=
  if closed s then Some (add_log (goto s i t (Release (Push v) RClosed)) i (Push v) RClosed)
  else if Nat.ltb (sendx s) (length (buf s)) then
    let x := S (sendx s) in
    let s1 := St (size s) (S (elems s)) (if Nat.eqb x (size s) then 0 else x) (readx s) (send_waiting s) (read_waiting s) (closed s) (put (buf s) (sendx s) v)
                 (mu s) (ths s) (log s) in
    Some (add_log (goto s1 i t (Signal (Push v) ROk)) i (Push v) ROk)
  else None.
(** pop lines 113-131, past the loop: report closed if there is nothing left, else read, move the index, count. *)
Definition act_pop (s : st) (i : nat) (t : thread) : option st :=
  if closed s && Nat.eqb (elems s) 0 then Some (add_log (goto s i t (Release Pop RClosed)) i Pop RClosed)
  else match nth_error (buf s) (readx s) with
       | Some v =>
           let x := S (readx s) in
           let s1 := St (size s) (pred (elems s)) (sendx s) (if Nat.eqb x (size s) then 0 else x) (send_waiting s) (read_waiting s) (closed s) (buf s)
                        (mu s) (ths s) (log s) in
           Some (add_log (goto s1 i t (Signal Pop (RVal v))) i Pop (RVal v))
       | None => None
       end.
(** close lines 147-151. *)
Definition act_close (s : st) (i : nat) (t : thread) : option st :=
  let s1 := St (size s) (elems s) (sendx s) (readx s) (send_waiting s) (read_waiting s) true (buf s) (mu s) (ths s) (log s) in
  Some (add_log (goto s1 i t (Signal Close ROk)) i Close ROk).

(** One step of thread [i]; [j] is the thread woken if the step is a signal. None when the thread cannot move, or when an access would be outside the
    buffer. *)
Definition move (s : st) (i j : nat) : option st :=
  match nth_error (ths s) i with
  | None => None
  | Some t =>
    match at_ t with
    | Idle => match prog t with o :: r => Some (set_ths s (put (ths s) i (Th r (AtLock o) (hist t)))) | [] => None end
    | AtLock o =>
        match mu s with
        | None => Some (goto (set_mu s (Some i)) i t (match o with Close => Act Close | _ => Check o end))
        | Some _ => None
        end
    (* `while (elems == size && !closed)`, `while (elems == 0 && !closed)`: count this thread as waiting and sleep, releasing the mutex *)
    | Check (Push v) =>
        if Nat.eqb (elems s) (size s) && negb (closed s)
        then Some (goto (set_mu (set_waiting s (S (send_waiting s)) (read_waiting s)) None) i t (Asleep (Push v)))
        else Some (goto s i t (Act (Push v)))
    | Check Pop =>
        if Nat.eqb (elems s) 0 && negb (closed s)
        then Some (goto (set_mu (set_waiting s (send_waiting s) (S (read_waiting s))) None) i t (Asleep Pop))
        else Some (goto s i t (Act Pop))
    | Check Close => None
    | Asleep _ => None
    (* wait returns with the mutex held, and the thread is no longer counted as waiting *)
    | Woken o =>
        match mu s with
        | None =>
            let s1 := match o with
                      | Push _ => set_waiting s (pred (send_waiting s)) (read_waiting s)
                      | _ => set_waiting s (send_waiting s) (pred (read_waiting s))
                      end in
            Some (goto (set_mu s1 (Some i)) i t (Check o))
        | Some _ => None
        end
    | Act (Push v) => act_push s i t v
    | Act Pop => act_pop s i t
    | Act Close => act_close s i t
    | Signal (Push v) r =>
        if Nat.ltb 0 (read_waiting s) then
          match signal sleeps_read s j with Some s1 => Some (goto s1 i t (Release (Push v) r)) | None => None end
        else Some (goto s i t (Release (Push v) r))
    | Signal Pop r =>
        if Nat.ltb 0 (send_waiting s) then
          match signal sleeps_send s j with Some s1 => Some (goto s1 i t (Release Pop r)) | None => None end
        else Some (goto s i t (Release Pop r))
    (* the two broadcasts of close (lines 153-154), as one step *)
    | Signal Close r => Some (goto (set_ths s (map wake (ths s))) i t (Release Close r))
    | Release o r => Some (set_ths (set_mu s None) (put (ths s) i (Th (prog t) Idle (hist t ++ [(o, r)]))))
    end
  end.

(** The schedule: a thread moves (waking [j] if it signals), or a sleeping thread wakes for no reason. *)
Inductive turn := Moves (i j : nat) | Spurious (i : nat).
Definition step (s : st) (c : turn) : option st :=
  match c with
  | Moves i j => move s i j
  | Spurious i => match nth_error (ths s) i with Some t => match at_ t with Asleep _ => Some (set_ths s (put (ths s) i (wake t))) | _ => None end | None => None end
  end.
Fixpoint run (s : st) (sched : list turn) : option st :=
  match sched with
  | [] => Some s
  | c :: r => match step s c with Some s' => run s' r | None => None end
  end.
End C.
Arguments op : clear implicits.
Arguments res : clear implicits.
Arguments pc : clear implicits.
Arguments thread : clear implicits.
Arguments st : clear implicits.
