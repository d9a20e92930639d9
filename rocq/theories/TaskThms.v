(** C29: running the task queue runs every task exactly once and returns only when all are done, whatever the schedule. *)
From Coq Require Import List Arith Bool Lia Permutation.
From Verif Require Import TaskModel TaskProofs.
Import ListNotations.

(** With pthreads: whatever the tasks, the number of threads and the schedule, if the call returns then the tasks that were started, and the tasks that
    were finished, are exactly the submitted ones, each as often as it was submitted. *)
Theorem C29_returns_only_when_done : forall (task : Type) (tasks : list task) threads sched s, 0 < threads ->
  run false (init tasks threads) sched = Some s -> main s = MDone -> Permutation tasks (started s) /\ Permutation tasks (finished s).
Proof.
  intros task tasks n sched s N R D. pose proof (inv_run false tasks n sched _ s (inv_init tasks n) ltac:(discriminate) R) as I.
  destruct (inv_done tasks n s N I D) as (A & B & _). auto.
Qed.
Print Assumptions C29_returns_only_when_done.

(** At every moment of every execution the tasks started so far are submitted ones, none more often than it was submitted; those finished were started. *)
Theorem C29_never_twice : forall (task : Type) (tasks : list task) threads sched s,
  run false (init tasks threads) sched = Some s ->
  (exists rest, Permutation tasks (started s ++ rest)) /\ (exists rest, Permutation tasks (finished s ++ rest)).
Proof.
  intros task tasks n sched s R. destruct (inv_run false tasks n sched _ s (inv_init tasks n) ltac:(discriminate) R) as [_ _ _ F S _ _].
  split; [exists (q s ++ flat_map unstarted (ths s))|exists (q s ++ flat_map carried (ths s))].
  - etransitivity; [exact S|]. rewrite app_assoc. apply Permutation_app_comm.
  - etransitivity; [exact F|]. rewrite app_assoc. apply Permutation_app_comm.
Qed.
Print Assumptions C29_never_twice.

(** No execution gets stuck before the call returns (or the compiler stops because a thread cannot be created). *)
Theorem C29_no_deadlock : forall (task : Type) (tasks : list task) threads sched s,
  run false (init tasks threads) sched = Some s -> main s = MDone \/ main s = MFailed \/ exists c s', step false s c = Some s'.
Proof.
  intros task tasks n sched s R. pose proof (inv_run false tasks n sched _ s (inv_init tasks n) ltac:(discriminate) R) as I.
  destruct (main s) as [k|k| |] eqn:M; auto; right; right; apply (progress false tasks n s I); congruence.
Qed.
Print Assumptions C29_no_deadlock.

(** Every execution ends: no schedule is longer than a bound linear in the tasks and the threads. *)
Theorem C29_terminates : forall (task : Type) (tasks : list task) threads sched s,
  run false (init tasks threads) sched = Some s -> length sched <= 8 * length tasks + 6 * threads + 3.
Proof.
  intros task tasks n sched s R. pose proof (run_bound false tasks n sched _ s (inv_init tasks n) ltac:(discriminate) R) as B.
  unfold work in B at 2. cbn [init ths q main mweight map list_sum fold_right] in B. lia.
Qed.
Print Assumptions C29_terminates.

(** No two workers are between lock and unlock at the same time, so the queue is read and changed by one thread only. *)
Theorem C29_mutual_exclusion : forall (task : Type) (tasks : list task) threads sched s i j p p',
  run false (init tasks threads) sched = Some s -> nth_error (ths s) i = Some p -> nth_error (ths s) j = Some p' ->
  (p <> PLock /\ p <> PExit /\ (forall t, p <> PRun t /\ p <> PRunning t)) -> (p' <> PLock /\ p' <> PExit /\ (forall t, p' <> PRun t /\ p' <> PRunning t)) -> i = j.
Proof.
  intros task tasks n sched s i j p p' R Gi Gj Hp Hp'. pose proof (inv_run false tasks n sched _ s (inv_init tasks n) ltac:(discriminate) R) as I.
  assert (H : forall x : pc task, (x <> PLock /\ x <> PExit /\ (forall t, x <> PRun t /\ x <> PRunning t)) -> holding x = true).
  { intros x (A & B & C). destruct x as [| |m|t|t|t|t| |]; try congruence; try reflexivity; destruct (C t); congruence. }
  pose proof (v_lock _ _ _ I i p Gi (H p Hp)). pose proof (v_lock _ _ _ I j p' Gj (H p' Hp')). congruence.
Qed.
Print Assumptions C29_mutual_exclusion.

(** The same on Windows for up to 64 threads. *)
Theorem C29_windows_partial : forall (task : Type) (tasks : list task) threads sched s, 0 < threads <= 64 ->
  run true (init tasks threads) sched = Some s ->
  (main s = MDone -> Permutation tasks (started s) /\ Permutation tasks (finished s)) /\
  (main s = MDone \/ main s = MFailed \/ exists c s', step true s c = Some s') /\
  length sched <= 8 * length tasks + 6 * threads + 3.
Proof.
  intros task tasks n sched s [N N64] R. pose proof (inv_run true tasks n sched _ s (inv_init tasks n) (fun _ => N64) R) as I. split; [|split].
  - intros D. destruct (inv_done tasks n s N I D) as (A & B & _). auto.
  - destruct (main s) as [k|k| |] eqn:M; auto; right; right; apply (progress true tasks n s I); congruence.
  - pose proof (run_bound true tasks n sched _ s (inv_init tasks n) (fun _ => N64) R) as B.
    unfold work in B at 2. cbn [init ths q main mweight map list_sum fold_right] in B. lia.
Qed.
Print Assumptions C29_windows_partial.

(** With 65 threads on Windows the call can return before any task has started: WaitForMultipleObjects refuses more than 64 handles and its failure is
    not noticed. *)
Theorem C29_windows_refuted : exists (tasks : list nat) threads sched s,
  0 < threads /\ tasks <> [] /\ run true (init tasks threads) sched = Some s /\ main s = MDone /\ finished s = [] /\ started s = [].
Proof.
  exists (seq 0 65), 65, (repeat Caller 67). eexists. split; [lia|]. split; [discriminate|]. split; [vm_compute; reflexivity|]. vm_compute. auto.
Qed.
Print Assumptions C29_windows_refuted.

(** A schedule of two threads and three tasks in which the threads take turns, up to the return of the call. *)
Example C29_run : run false (init [1; 2; 3] 2)
   ([Caller; Caller; Caller] ++ repeat (Worker 1) 5 ++ repeat (Worker 0) 5 ++ [Worker 1; Worker 0; Worker 0; Worker 1] ++ repeat (Worker 0) 7 ++
    repeat (Worker 1) 3 ++ repeat (Worker 0) 3 ++ [Caller; Caller; Caller])
  = Some (St [] None [PExit; PExit] MDone [3; 2; 1] [2; 3; 1]).
Proof. vm_compute. reflexivity. Qed.
