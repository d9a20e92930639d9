(** C49: a BufferedChannel is a bounded FIFO queue under every schedule. *)
From Coq Require Import List Arith Bool Lia.
From Verif Require Import ChanModel ChanSpec ChanProofs ChanProofs2.
Import ListNotations.

(** Whatever the threads call and whatever the schedule, spurious wake-ups included: there is one sequence of all operations that took effect which is a
    history of a queue used by one operation at a time; it contains, for every thread, exactly the operations that returned to it with the results they
    returned, in the order the thread called them, and besides at most the one it is in. *)
Theorem C49_linearizable : forall (V : Type) (buf0 : list V) progs sched s, run (init buf0 progs) sched = Some s ->
  exists b, legal (length buf0) (log s) b (closed s) /\
  forall i t, nth_error (ths s) i = Some t ->
    exists pending rest, of_thread i (log s) = hist t ++ pending /\ length pending <= 1 /\ (idle t -> pending = []) /\
      nth_error progs i = Some (map fst (hist t ++ pending) ++ rest).
Proof.
  intros V buf0 progs sched s R. destruct (inv_run progs sched _ s (inv_init buf0 progs) R) as (_ & [[b [LG _]] _] & [_ HI] & _).
  exists b. rewrite (size_run sched _ s R) in LG. split; [exact LG|]. intros i t G. destruct (HI i t G) as [H1 H2]. exists (pend (at_ t)), (cur (at_ t) ++ prog t).
  split; [exact H1|]. split; [destruct (at_ t); cbn; lia|]. split; [unfold idle; intros ->; reflexivity|exact H2].
Qed.
Print Assumptions C49_linearizable.

(** The sequence only grows at its end. With the theorem above: an operation that had returned before another was called comes before it. *)
Theorem C49_real_time : forall (V : Type) (buf0 : list V) progs sched1 sched2 s1 s2,
  run (init buf0 progs) sched1 = Some s1 -> run s1 sched2 = Some s2 ->
  (exists later, log s2 = log s1 ++ later) /\ forall i t, nth_error (ths s1) i = Some t -> idle t -> of_thread i (log s1) = hist t.
Proof.
  intros V buf0 progs sched1 sched2 s1 s2 R1 R2. split; [eapply log_run; eauto|]. intros i t G D.
  destruct (inv_run progs sched1 _ s1 (inv_init buf0 progs) R1) as (_ & _ & [_ HI] & _). destruct (HI i t G) as [H _]. unfold idle in D. rewrite D in H. cbn in H. rewrite app_nil_r in H. exact H.
Qed.
Print Assumptions C49_real_time.

(** The values popped are the values pushed, in the same order, each once; what is left is at most [size] values. *)
Theorem C49_fifo : forall (V : Type) (buf0 : list V) progs sched s, run (init buf0 progs) sched = Some s ->
  exists waiting, pushed (log s) = popped (log s) ++ waiting /\ length waiting <= length buf0.
Proof.
  intros V buf0 progs sched s R. destruct (inv_run progs sched _ s (inv_init buf0 progs) R) as (_ & [[b [LG _]] _] & _ & _). rewrite (size_run sched _ s R) in LG.
  destruct (legal_fifo _ _ _ _ LG) as (A & B & _). eauto.
Qed.
Print Assumptions C49_fifo.

(** After a close no push succeeds; a pop reports closed only after a close and when every pushed value has been popped. *)
Theorem C49_close : forall (V : Type) (buf0 : list V) progs sched s, run (init buf0 progs) sched = Some s ->
  (forall before i v after, log s = before ++ (i, Push v, ROk) :: after -> ~ exists j, In (j, Close, ROk) before) /\
  (forall before i v after, log s = before ++ (i, Push v, RClosed) :: after -> exists j, In (j, Close, ROk) before) /\
  (forall before i after, log s = before ++ (i, Pop, RClosed) :: after -> (exists j, In (j, Close, ROk) before) /\ popped before = pushed before).
Proof.
  intros V buf0 progs sched s R. destruct (inv_run progs sched _ s (inv_init buf0 progs) R) as (_ & [[b [LG _]] _] & _ & _). split; [|split].
  - intros before i v after E. rewrite E in LG. destruct (legal_at _ _ _ _ _ _ LG) as (b1 & c1 & b2 & c2 & L1 & Q). destruct (legal_fifo _ _ _ _ L1) as (_ & _ & C).
    cbn [fst snd queue_op] in Q. rewrite <- C. intros ->. discriminate.
  - intros before i v after E. rewrite E in LG. destruct (legal_at _ _ _ _ _ _ LG) as (b1 & c1 & b2 & c2 & L1 & Q). destruct (legal_fifo _ _ _ _ L1) as (_ & _ & C).
    cbn [fst snd queue_op] in Q. apply C. destruct c1; [reflexivity|]. destruct (length b1 <? size s); discriminate.
  - intros before i after E. rewrite E in LG. destruct (legal_at _ _ _ _ _ _ LG) as (b1 & c1 & b2 & c2 & L1 & Q). destruct (legal_fifo _ _ _ _ L1) as (F & _ & C).
    cbn [fst snd queue_op] in Q. destruct b1; [|discriminate]. destruct c1; [|discriminate]. split; [apply C; reflexivity|]. rewrite F, app_nil_r. reflexivity.
Qed.
Print Assumptions C49_close.

(** No wake-up is lost: as long as nothing can move, without counting on spurious wake-ups, every unfinished thread is either a sender waiting at a full open channel, or a
    receiver waiting at an empty open channel; with room for at least one value there cannot be both. No access is ever outside the buffer (such a step would not exist). *)
Theorem C49_no_lost_wakeup : forall (V : Type) (buf0 : list V) progs sched s, run (init buf0 progs) sched = Some s -> 0 < length buf0 ->
  (exists i j s', step s (Moves i j) = Some s') \/
  (forall i t, nth_error (ths s) i = Some t -> finished t) \/
  (closed s = false /\ elems s = size s /\ forall i t, nth_error (ths s) i = Some t -> finished t \/ sending t) \/
  (closed s = false /\ elems s = 0 /\ forall i t, nth_error (ths s) i = Some t -> finished t \/ receiving t).
Proof.
  intros V buf0 progs sched s R N. pose proof (size_run sched _ s R) as SZ. cbn in SZ. destruct (progress progs s (inv_run progs sched _ s (inv_init buf0 progs) R)) as [X|(A & B & C)]; [left; exact X|right].
  destruct (Exists_dec (fun t : thread _ => sending t) (ths s)) as [Es|Es].
  { intros t. unfold sending. destruct (at_ t) as [|o|o|[v| |]|o|o|o r|o r]; try (right; intros [? ?]; discriminate). left. eauto. }
  - right. left. apply Exists_exists in Es. destruct Es as (t & T & S). apply In_nth_error in T. destruct T as [i G]. destruct (B i t G S) as [B1 B2]. split; [exact B1|]. split; [exact B2|].
    intros k x Gk. destruct (A k x Gk) as [Y|[Y|Y]]; auto. destruct (C k x Gk Y). lia.
  - destruct (Exists_dec (fun t : thread _ => receiving t) (ths s)) as [Er|Er].
    { intros t. unfold receiving. destruct (at_ t) as [|o|o|[v| |]|o|o|o r|o r]; try (right; intros ?; discriminate). left. reflexivity. }
    + right. right. apply Exists_exists in Er. destruct Er as (t & T & S). apply In_nth_error in T. destruct T as [i G]. destruct (C i t G S) as [C1 C2]. split; [exact C1|]. split; [exact C2|].
      intros k x Gk. destruct (A k x Gk) as [Y|[Y|Y]]; auto. destruct (B k x Gk Y). lia.
    + left. intros i t G. destruct (A i t G) as [Y|[Y|Y]]; [exact Y| |]; exfalso; [apply Es|apply Er]; apply Exists_exists; exists t; split; auto; eapply nth_error_In; eauto.
Qed.
Print Assumptions C49_no_lost_wakeup.

(** Every schedule is finite, up to the number of spurious wake-ups: threads cannot keep waking each other for nothing. *)
Theorem C49_terminates : forall (V : Type) (buf0 : list V) progs sched s, run (init buf0 progs) sched = Some s ->
  length sched <= (2 * length progs + 7) * list_sum (map (@length (op V)) progs) + 3 * spurious sched.
Proof.
  intros V buf0 progs sched s R. pose proof (run_bound sched _ s R) as B. rewrite work_init in B. cbn [init ths] in B. rewrite map_length in B. lia.
Qed.
Print Assumptions C49_terminates.

(** Two senders and a receiver on a channel of one place: the second sender sleeps and is woken by the pop; then a close. *)
Example C49_run : exists s, run (init [0] [[Push 1]; [Push 2]; [Pop; Close; Pop; Pop]])
    ([Moves 0 0; Moves 0 0; Moves 0 0; Moves 0 0; Moves 0 0; Moves 0 0] ++ [Moves 1 0; Moves 1 0; Moves 1 0] ++
     [Moves 2 0; Moves 2 0; Moves 2 0; Moves 2 0; Moves 2 1; Moves 2 0] ++ [Moves 1 0; Moves 1 0; Moves 1 0; Moves 1 0; Moves 1 0] ++
     [Moves 2 0; Moves 2 0; Moves 2 0; Moves 2 0; Moves 2 0] ++ [Moves 2 0; Moves 2 0; Moves 2 0; Moves 2 0; Moves 2 0; Moves 2 0] ++ [Moves 2 0; Moves 2 0; Moves 2 0; Moves 2 0; Moves 2 0]) = Some s /\
  map (@hist nat) (ths s) = [[(Push 1, ROk)]; [(Push 2, ROk)]; [(Pop, RVal 1); (Close, ROk); (Pop, RVal 2); (Pop, RClosed)]].
Proof. eexists. split; [vm_compute; reflexivity|reflexivity]. Qed.
