(** C50: the UnbufferedChannel makes progress with one sender and one receiver; with more it can deadlock. *)
From Coq Require Import List Arith Bool Lia.
From Verif Require Import ChanModel ChanSpec ChanUModel ChanUProofs ChanUProofs2.
Import ListNotations.

(** Partial: one thread that pushes [vs] and one thread that pops [m] times, no close, `closed` cleared by luck, and the sender's wait never woken spuriously. Missing from the property: more
    senders or receivers, spurious wake-ups of the sender, close (all three are refuted below). Under every schedule: the receiver gets a prefix of [vs] in order; a push has
    returned only if its value was taken, and a value is got only if its push has begun. *)
Theorem C50_rendezvous_partial : forall (V : Type) (g : V) vs m sched s, ~ In (Spurious 0) sched ->
  urun (uinit g false [map Push vs; repeat Pop m]) sched = Some s ->
  exists t0 t1 sent got, uths s = [t0; t1] /\ uhist t0 = map (fun v => (Push v, ROk)) sent /\ uhist t1 = map (fun v => (Pop, RVal v)) got /\
    (exists rest, vs = sent ++ rest) /\ (exists rest, vs = got ++ rest) /\ length sent <= length got + 1 /\ length got <= length sent + 1.
Proof.
  intros V g vs m sched s N R. pose proof (inv_run vs m sched _ s (inv_init g vs m) N R) as [_ (p0 & p1 & d0 & d1 & rest & k & T & RL & _ & _ & _ & _ & _ & EV & _ & ES & ET & EB)].
  exists (UTh (map Push rest) p0 (map (fun v => (Push v, ROk)) d0)), (UTh (repeat Pop k) p1 (map (fun v => (Pop, RVal v)) d1)), d0, d1.
  split; [exact T|]. split; [reflexivity|]. split; [reflexivity|]. split; [eauto|].
  assert (OK : okR p1 = true) by (unfold rel in RL; rewrite !andb_true_iff in RL; tauto).
  assert (X : d0 ++ sto0 p0 = d1 ++ tak1 p1 ++ (if full p0 p1 then [ubuf s] else [])) by (rewrite <- ES, EB, ET, <- app_assoc; reflexivity).
  split.
  - assert (Y : exists r, d0 ++ cur0 p0 = (d0 ++ sto0 p0) ++ r). { kill p0 RL; cbn [cur0 sto0]; rewrite ?app_nil_r; try (exists []; rewrite app_nil_r; reflexivity); eexists; reflexivity. }
    destruct Y as [r Y]. exists (tak1 p1 ++ (if full p0 p1 then [ubuf s] else []) ++ r ++ rest). rewrite EV. rewrite app_assoc, Y, X, <- !app_assoc. reflexivity.
  - apply (f_equal (@length V)) in X. rewrite !app_length in X. kill p0 RL; kill p1 OK; cbn in X; try discriminate RL; lia.
Qed.
Print Assumptions C50_rendezvous_partial.

(** In the same case the channel does not deadlock: when nothing can move, one of the two has finished all its operations. *)
Theorem C50_progress_partial : forall (V : Type) (g : V) vs m sched s, ~ In (Spurious 0) sched ->
  urun (uinit g false [map Push vs; repeat Pop m]) sched = Some s -> (forall i j, ustep s (Moves i j) = None) ->
  exists t0 t1, uths s = [t0; t1] /\ (uat t0 = UIdle /\ uprog t0 = [] \/ uat t1 = UIdle /\ uprog t1 = []).
Proof.
  intros V g vs m sched s N R ST. destruct (progress vs m s (inv_run vs m sched _ s (inv_init g vs m) N R)) as [(i & j & s' & E)|X]; [|exact X].
  specialize (ST i j). cbn [ustep] in ST. congruence.
Qed.
Print Assumptions C50_progress_partial.

(** And every schedule is finite, up to spurious wake-ups, so the exchanges do happen. *)
Theorem C50_terminates_partial : forall (V : Type) (g : V) vs m sched s, ~ In (Spurious 0) sched ->
  urun (uinit g false [map Push vs; repeat Pop m]) sched = Some s -> length sched <= 13 * length vs + 10 * m + 3 * spurious sched.
Proof.
  intros V g vs m sched s N R. pose proof (run_bound vs m sched _ s (inv_init g vs m) N R) as B. unfold work in B at 2. cbn [uinit uths map uat uprog wt] in B.
  rewrite map_length, repeat_length in B. lia.
Qed.
Print Assumptions C50_terminates_partial.

(** With two senders the channel can deadlock for good: the first waits holding `send_mu`, the second holds `mu` and waits for `send_mu`, and the receiver waits for `mu`; no
    step of any kind is possible and nothing has been received. *)
Theorem C50_two_senders_refuted : exists sched s,
  urun (uinit 0 false [[Push 1]; [Push 2]; [Pop]]) sched = Some s /\ (forall c, ustep s c = None) /\ taken s = [] /\ map (@uhist nat) (uths s) = [[]; []; []].
Proof.
  exists ([Moves 0 0; Moves 0 0; Moves 0 0; Moves 0 0; Moves 0 0; Moves 0 0] ++ [Spurious 0] ++ [Moves 1 0; Moves 1 0] ++ [Moves 2 0]). eexists. split; [vm_compute; reflexivity|].
  split; [|split; reflexivity]. intros [[|[|[|i]]] j|[|[|[|i]]]]; try reflexivity; destruct i; reflexivity.
Qed.
Print Assumptions C50_two_senders_refuted.

(** The same without any spurious wake-up: no thread can move. *)
Theorem C50_two_senders_no_spurious_refuted : exists sched s,
  urun (uinit 0 false [[Push 1]; [Push 2]; [Pop]]) sched = Some s /\ spurious sched = 0 /\ (forall i j, ustep s (Moves i j) = None) /\ taken s = [] /\ map (@uhist nat) (uths s) = [[]; []; []].
Proof.
  exists ([Moves 0 0; Moves 0 0; Moves 0 0; Moves 0 0; Moves 0 0; Moves 0 0] ++ [Moves 1 0; Moves 1 0] ++ [Moves 2 0]). eexists. split; [vm_compute; reflexivity|]. split; [reflexivity|].
  split; [|split; reflexivity]. intros [|[|[|i]]] j; try reflexivity. destruct i; reflexivity.
Qed.
Print Assumptions C50_two_senders_no_spurious_refuted.

(** Two receivers deadlock in the same way, so that a sender then cannot get in. *)
Theorem C50_two_receivers_refuted : exists sched s,
  urun (uinit 0 false [[Pop]; [Pop]; [Push 1]]) sched = Some s /\ spurious sched = 0 /\ (forall i j, ustep s (Moves i j) = None) /\ stored s = [].
Proof.
  exists ([Moves 0 0; Moves 0 0; Moves 0 0; Moves 0 0] ++ [Moves 1 0; Moves 1 0] ++ [Moves 2 0]). eexists. split; [vm_compute; reflexivity|]. split; [reflexivity|].
  split; [|reflexivity]. intros [|[|[|i]]] j; try reflexivity. destruct i; reflexivity.
Qed.
Print Assumptions C50_two_receivers_refuted.

(** A spurious wake-up of the sender makes push return before the value was taken: the next push overwrites it, and the receiver gets the second value twice. *)
Theorem C50_spurious_wakeup_refuted : exists sched s,
  urun (uinit 0 false [[Push 1; Push 2]; [Pop; Pop]]) sched = Some s /\
  map (@uhist nat) (uths s) = [[(Push 1, ROk); (Push 2, ROk)]; [(Pop, RVal 2); (Pop, RVal 2)]].
Proof.
  exists (repeat (Moves 0 0) 6 ++ [Spurious 0] ++ repeat (Moves 0 0) 4 ++ repeat (Moves 0 0) 6 ++ repeat (Moves 1 0) 8 ++ repeat (Moves 0 0) 4 ++ repeat (Moves 1 0) 8).
  eexists. split; [vm_compute; reflexivity|reflexivity].
Qed.
Print Assumptions C50_spurious_wakeup_refuted.

(** A close between the pop and the return of the push makes the push report CHANNEL_CLOSED although its value was received. *)
Theorem C50_close_refuted : exists sched s,
  urun (uinit 0 false [[Push 1]; [Pop]; [Close]]) sched = Some s /\ spurious sched = 0 /\
  map (@uhist nat) (uths s) = [[(Push 1, RClosed)]; [(Pop, RVal 1)]; [(Close, ROk)]].
Proof.
  exists (repeat (Moves 0 0) 6 ++ repeat (Moves 1 0) 8 ++ repeat (Moves 2 0) 5 ++ repeat (Moves 0 0) 4). eexists. split; [vm_compute; reflexivity|]. split; reflexivity.
Qed.
Print Assumptions C50_close_refuted.

(** `init` does not clear the memory: a channel that happens to start with a non-zero `closed` byte refuses its first push although nobody closed it. *)
Theorem C50_uninitialised_refuted : exists sched s,
  urun (uinit 0 true [[Push 1]]) sched = Some s /\ map (@uhist nat) (uths s) = [[(Push 1, RClosed)]].
Proof. exists (repeat (Moves 0 0) 6). eexists. split; [vm_compute; reflexivity|reflexivity]. Qed.
Print Assumptions C50_uninitialised_refuted.

(** Two values exchanged, the receiver sleeping first. *)
Example C50_run : exists s, urun (uinit 0 false [map Push [1; 2]; repeat Pop 2])
    (repeat (Moves 1 0) 4 ++ repeat (Moves 0 1) 6 ++ repeat (Moves 1 0) 6 ++ repeat (Moves 0 0) 4 ++ repeat (Moves 0 0) 6 ++ repeat (Moves 1 0) 8 ++ repeat (Moves 0 0) 4) = Some s /\
  map (@uhist nat) (uths s) = [[(Push 1, ROk); (Push 2, ROk)]; [(Pop, RVal 1); (Pop, RVal 2)]].
Proof. eexists. split; [vm_compute; reflexivity|reflexivity]. Qed.

(** Mutexes, with no restriction on threads, operations, close, spurious wake-ups or the initial memory: a thread outside the channel's operations holds none of the three mutexes
    so a returned call, successful or refused, never leaves one locked. *)
Theorem C50_locks : forall (V : Type) (g : V) gc progs sched s, urun (uinit g gc progs) sched = Some s ->
  forall i t, nth_error (uths s) i = Some t -> uat t = UIdle -> umu s <> Some i /\ usend_mu s <> Some i /\ uread_mu s <> Some i.
Proof.
  intros V g gc progs sched s R i t E I. destruct (run_locks sched _ s (init_locks g gc progs) R i t E) as (_ & A & B & C).
  unfold owner in *. rewrite I in *. cbn in *. repeat split; intros X; [apply A in X|apply B in X|apply C in X]; discriminate.
Qed.
Print Assumptions C50_locks.

(** Two refused pushes after a close, by two threads: every call has returned and no mutex is left locked. *)
Example C50_locks_case : exists s, urun (uinit 0 false [[Close; Push 1]; [Push 2]]) (repeat (Moves 0 0) 11 ++ repeat (Moves 1 0) 6) = Some s /\
  map (@uhist nat) (uths s) = [[(Close, ROk); (Push 1, RClosed)]; [(Push 2, RClosed)]] /\ umu s = None /\ usend_mu s = None /\ uread_mu s = None.
Proof. eexists. split; [vm_compute; reflexivity|repeat split]. Qed.
