(** Lemmas about thread pools. *)
From Coq Require Import Arith List Bool Permutation Lia.
From Verif Require Import PoolModel PoolSpec.
Import ListNotations.

Section Proofs.
Variable job : Type.
Implicit Types (p : pool job) (l : list (place job)) (w : place job).

Definition is_done (w : place job) : bool := match w with Done => true | _ => false end.
Definition is_waiting (w : place job) : bool := match w with Waiting => true | _ => false end.
Definition dones l : nat := length (filter is_done l).
Definition waits l : nat := length (filter is_waiting l).

(** Changing the place of one worker. *)
Lemma put_split l i w w0 : nth_error l i = Some w0 -> exists a b, l = a ++ w0 :: b /\ put _ i w l = a ++ w :: b.
Proof.
  revert i. induction l as [| x l IH]; intros [| i] H; cbn [nth_error put] in *; try discriminate.
  - injection H as <-. exists [], l. auto.
  - destruct (IH i H) as (a & b & -> & E). exists (x :: a), b. cbn [app]. rewrite E. auto.
Qed.
Lemma dones_app a b : dones (a ++ b) = dones a + dones b. Proof. unfold dones. rewrite filter_app, app_length. reflexivity. Qed.
Lemma waits_app a b : waits (a ++ b) = waits a + waits b. Proof. unfold waits. rewrite filter_app, app_length. reflexivity. Qed.
Lemma dones_cons w l : dones (w :: l) = (if is_done w then 1 else 0) + dones l. Proof. unfold dones. cbn [filter]. destruct (is_done w); reflexivity. Qed.
Lemma waits_cons w l : waits (w :: l) = (if is_waiting w then 1 else 0) + waits l. Proof. unfold waits. cbn [filter]. destruct (is_waiting w); reflexivity. Qed.
Lemma dones_wake l : dones (map (wake _) l) = dones l.
Proof. induction l as [| w l IH]; [reflexivity |]. cbn [map]. rewrite !dones_cons, IH. destruct w; reflexivity. Qed.
Lemma waits_wake l : waits (map (wake _) l) = 0.
Proof. induction l as [| w l IH]; [reflexivity |]. cbn [map]. rewrite !waits_cons, IH. destruct w; reflexivity. Qed.
Lemma running_wake l : running (map (wake _) l) = running l.
Proof. induction l as [| w l IH]; [reflexivity |]. cbn [map]. destruct w; cbn [wake running]; rewrite ?IH; reflexivity. Qed.
Lemma running_app (a b : list (place job)) : running (a ++ b) = running a ++ running b.
Proof. induction a as [| w a IH]; [reflexivity |]. destruct w; cbn [app running]; rewrite IH; reflexivity. Qed.
Lemma dones_le l : dones l <= length l. Proof. unfold dones. induction l as [| w l IH]; cbn [filter length]; [lia |]. destruct (is_done w); cbn [length]; lia. Qed.

Definition inv (wanted threads : nat) p : Prop :=
  length (workers _ p) = threads /\ num_threads _ p + dones (workers _ p) = wanted /\
  (queue _ p <> [] -> waits (workers _ p) = 0) /\ (0 < dones (workers _ p) -> stop _ p = true \/ stop_now _ p = true) /\
  length (queue _ p) <= size _ p /\
  Permutation (pushed _ p) (started _ p ++ queue _ p) /\ Permutation (started _ p) (ended _ p ++ running (workers _ p)).

Lemma inv_init f s wanted threads : inv wanted threads (init job f s wanted threads).
Proof.
  unfold inv, init. cbn [workers num_threads queue stop stop_now size pushed started ended].
  assert (D : dones (repeat Top threads) = 0) by (induction threads; auto). assert (R : running (repeat (@Top job) threads) = []) by (induction threads; auto).
  rewrite repeat_length, D, R. cbn. repeat split; auto; try lia. congruence.
Qed.
Ltac flat := cbn [fixed size queue num_threads stop stop_now workers pushed started ended at_place leave] in *.
Ltac perm := rewrite ?running_app in *; cbn [running app] in *.

Lemma inv_take wanted threads p i w0 : threads <= wanted -> inv wanted threads p -> nth_error (workers _ p) i = Some w0 -> (w0 = Top \/ w0 = Woken) -> inv wanted threads (take _ p i).
Proof.
  intros TW (L & N & W & D & S0 & P1 & P2) E O. destruct p as [f s q n st sn ws pu sa en]. flat.
  assert (DL := dones_le ws). unfold take. flat. destruct q as [| j q]; [destruct st |].
  - destruct (put_split ws i Done w0 E) as (a & b & -> & ES). pose proof (dones_le a). pose proof (dones_le b). unfold inv, leave. flat. rewrite ES. rewrite !dones_app, !dones_cons, !app_length in *. cbn [length is_done] in *.
    destruct O as [-> | ->]; cbn [is_done] in *; perm; (repeat split; auto; try lia; congruence).
  - destruct (put_split ws i Waiting w0 E) as (a & b & -> & ES). unfold inv, at_place. flat. rewrite ES. rewrite !dones_app, !dones_cons, !app_length in *. cbn [length is_done] in *.
    destruct O as [-> | ->]; cbn [is_done] in *; perm; (repeat split; auto; try lia; congruence).
  - destruct (put_split ws i (Running _ j) w0 E) as (a & b & -> & ES). unfold inv. flat. rewrite ES. specialize (W ltac:(discriminate)).
    rewrite !dones_app, !dones_cons, !waits_app, !waits_cons, !app_length in *. cbn [length is_done is_waiting] in *.
    destruct O as [-> | ->]; cbn [is_done is_waiting] in *; perm; (repeat split; auto; try lia);
      try (eapply perm_trans; [exact P1 |]; apply Permutation_sym, Permutation_middle);
      (eapply perm_trans; [apply perm_skip; exact P2 |]; eapply perm_trans; [apply Permutation_middle |]; apply Permutation_app_head, Permutation_middle).
Qed.
Lemma inv_leave wanted threads p i w0 : threads <= wanted -> inv wanted threads p -> nth_error (workers _ p) i = Some w0 -> (w0 = Top \/ w0 = Woken) -> stop_now _ p = true -> inv wanted threads (leave _ p i).
Proof.
  intros TW (L & N & W & D & S0 & P1 & P2) E O SN. destruct p as [f s q n st sn ws pu sa en]. flat.
  assert (DL := dones_le ws).
  destruct (put_split ws i Done w0 E) as (a & b & -> & ES). pose proof (dones_le a). pose proof (dones_le b). unfold inv, leave. flat. rewrite ES. rewrite !dones_app, !dones_cons, !waits_app, !waits_cons, !app_length in *. cbn [length is_done is_waiting] in *.
  destruct O as [-> | ->]; cbn [is_done is_waiting] in *; perm; (repeat split; auto; try lia).
Qed.
Lemma inv_step wanted threads p e p' : threads <= wanted -> inv wanted threads p -> step _ p e = Some p' -> inv wanted threads p'.
Proof.
  intros TW I H. destruct e as [i | i | j | now]; cbn [step] in H.
  - unfold work in H. destruct (nth_error (workers _ p) i) as [[| | | j |] |] eqn:E; try discriminate; injection H as <-.
    + destruct (fixed _ p && stop_now _ p) eqn:F; [eapply inv_leave; eauto; apply andb_true_iff in F; tauto | eapply inv_take; eauto].
    + destruct (stop_now _ p) eqn:F; [eapply inv_leave; eauto | eapply inv_take; eauto].
    + destruct I as (L & N & W & D & S0 & P1 & P2). destruct p as [f s q n st sn ws pu sa en]. flat.
      destruct (put_split ws i Top _ E) as (a & b & -> & ES). unfold inv. flat. rewrite ES. rewrite !dones_app, !dones_cons, !waits_app, !waits_cons, !app_length in *. cbn [length is_done is_waiting] in *. perm.
      repeat split; auto. eapply perm_trans; [exact P2 |]. rewrite !app_assoc. apply Permutation_sym. eapply perm_trans; [| apply Permutation_middle]. cbn [app]. reflexivity.
  - unfold wake_one in H. destruct (nth_error (workers _ p) i) as [[| | | j |] |] eqn:E; try discriminate; injection H as <-.
    destruct I as (L & N & W & D & S0 & P1 & P2). destruct p as [f s q n st sn ws pu sa en]. flat.
    destruct (put_split ws i Woken _ E) as (a & b & -> & ES). unfold inv, at_place. flat. rewrite ES. rewrite !dones_app, !dones_cons, !waits_app, !waits_cons, !app_length in *. cbn [length is_done is_waiting] in *. perm.
    repeat split; auto. intros Q. specialize (W Q). lia.
  - unfold push in H. destruct (length (queue _ p) <? size _ p) eqn:F; [| discriminate]. apply Nat.ltb_lt in F. injection H as <-.
    destruct I as (L & N & W & D & S0 & P1 & P2). unfold inv. flat. rewrite map_length, dones_wake, waits_wake, running_wake. cbn [length].
    repeat split; auto. eapply perm_trans; [apply perm_skip; exact P1 |]. apply Permutation_middle.
  - injection H as <-. destruct I as (L & N & W & D & S0 & P1 & P2). unfold inv, request. flat. rewrite map_length, dones_wake, waits_wake, running_wake.
    repeat split; auto. intros Q. destruct (D Q) as [-> | ->]; auto.
Qed.
Lemma inv_run wanted threads (l : list (event job)) : threads <= wanted -> forall p p', inv wanted threads p -> run _ p l = Some p' -> inv wanted threads p'.
Proof.
  intros TW. induction l as [| e l IH]; intros p p' I H; cbn [run] in H; [injection H as <-; auto |].
  destruct (step _ p e) as [p1 |] eqn:S1; [| discriminate]. eapply IH; [| exact H]. eapply inv_step; eauto.
Qed.
Lemma step_pushed p e p' : step _ p e = Some p' -> pushed _ p' = rev (jobs [e]) ++ pushed _ p.
Proof.
  destruct e as [i | i | j | now]; cbn [step jobs rev app]; intros H.
  - unfold work in H. destruct (nth_error (workers _ p) i) as [[| | | j |] |]; try discriminate; injection H as <-.
    + destruct (fixed _ p && stop_now _ p); [reflexivity |]. unfold take. destruct (queue _ p); [destruct (stop _ p) |]; reflexivity.
    + destruct (stop_now _ p); [reflexivity |]. unfold take. destruct (queue _ p); [destruct (stop _ p) |]; reflexivity.
    + reflexivity.
  - unfold wake_one in H. destruct (nth_error (workers _ p) i) as [[| | | j |] |]; try discriminate; injection H as <-. reflexivity.
  - unfold push in H. destruct (_ <? _); [| discriminate]. injection H as <-. reflexivity.
  - injection H as <-. reflexivity.
Qed.
Lemma jobs_app a b : jobs (a ++ b) = jobs a ++ @jobs job b.
Proof. induction a as [| e a IH]; [reflexivity |]. destruct e; cbn [app jobs]; rewrite IH; reflexivity. Qed.
Lemma run_pushed (l : list (event job)) : forall p p', run _ p l = Some p' -> pushed _ p' = rev (jobs l) ++ pushed _ p.
Proof.
  induction l as [| e l IH]; intros p p' H; cbn [run] in H; [injection H as <-; reflexivity |].
  destruct (step _ p e) as [p1 |] eqn:S1; [| discriminate]. rewrite (IH _ _ H), (step_pushed _ _ _ S1). change (e :: l) with ([e] ++ l). rewrite jobs_app, rev_app_distr, app_assoc. reflexivity.
Qed.
Lemma run_app a : forall p b, run job p (a ++ b) = match run job p a with Some p1 => run job p1 b | None => None end.
Proof. induction a as [| e a IH]; intros p b; [reflexivity |]. cbn [app run]. destruct (step job p e); auto. Qed.

(** ** Shutdown *)
Lemma stops_step p e p' : step _ p e = Some p' -> (stop _ p = true -> stop _ p' = true) /\ (stop_now _ p = true -> stop_now _ p' = true) /\ fixed _ p' = fixed _ p /\ size _ p' = size _ p /\
  (no_request e -> stop _ p' = stop _ p /\ stop_now _ p' = stop_now _ p) /\ (not_now e -> stop_now _ p' = stop_now _ p).
Proof.
  destruct e as [i | i | j | now]; cbn [step no_request not_now]; intros H.
  - unfold work in H. destruct (nth_error (workers _ p) i) as [[| | | j |] |]; try discriminate; injection H as <-.
    + destruct (fixed _ p && stop_now _ p); [cbn; tauto |]. unfold take. destruct (queue _ p); [destruct (stop _ p) eqn:ST |]; cbn; rewrite ?ST; tauto.
    + destruct (stop_now _ p) eqn:SN; [cbn; rewrite SN; tauto |]. unfold take. destruct (queue _ p); [destruct (stop _ p) eqn:ST |]; cbn; rewrite ?ST, ?SN; tauto.
    + cbn; tauto.
  - unfold wake_one in H. destruct (nth_error (workers _ p) i) as [[| | | j |] |]; try discriminate; injection H as <-. cbn; tauto.
  - unfold push in H. destruct (_ <? _); [| discriminate]. injection H as <-. cbn; tauto.
  - injection H as <-. cbn [request stop stop_now fixed size]. repeat split; try tauto; try (intros ->; reflexivity). intros ->. apply orb_false_r.
Qed.
Lemma drop_step p e p' : fixed _ p = true -> stop_now _ p = true -> step _ p e = Some p' -> started _ p' = started _ p.
Proof.
  intros F SN. destruct e as [i | i | j | now]; cbn [step]; intros H.
  - unfold work in H. destruct (nth_error (workers _ p) i) as [[| | | j |] |]; try discriminate; injection H as <-; rewrite ?F, ?SN; reflexivity.
  - unfold wake_one in H. destruct (nth_error (workers _ p) i) as [[| | | j |] |]; try discriminate; injection H as <-. reflexivity.
  - unfold push in H. destruct (_ <? _); [| discriminate]. injection H as <-. reflexivity.
  - injection H as <-. reflexivity.
Qed.
Lemma drop_run (l : list (event job)) : forall p p', fixed _ p = true -> stop_now _ p = true -> run _ p l = Some p' -> started _ p' = started _ p.
Proof.
  induction l as [| e l IH]; intros p p' F SN H; cbn [run] in H; [injection H as <-; reflexivity |].
  destruct (step _ p e) as [p1 |] eqn:S1; [| discriminate]. destruct (stops_step _ _ _ S1) as (_ & SN1 & F1 & _). rewrite (IH p1 p'); auto; [eapply drop_step; eauto | congruence].
Qed.

(** Once stopping without pushes, a worker leaves only an empty queue. *)
Definition settled p : Prop := stop_now _ p = false /\ (0 < dones (workers _ p) -> queue _ p = []).
Lemma settled_step p e p' : no_push e -> not_now e -> settled p -> step _ p e = Some p' -> settled p'.
Proof.
  intros NP NN (SN & Q) H. destruct (stops_step _ _ _ H) as (_ & _ & _ & _ & _ & NW). split; [rewrite (NW NN); exact SN |].
  destruct e as [i | i | j | now]; cbn [step no_push] in *; try contradiction.
  - unfold work in H. assert (T : forall w0, nth_error (workers _ p) i = Some w0 -> w0 = Top \/ w0 = Woken -> 0 < dones (workers _ (take _ p i)) -> queue _ (take _ p i) = []).
    { intros w0 E O. unfold take. destruct (queue _ p) as [| j q] eqn:QE; [destruct (stop _ p); flat; auto |]. flat.
      destruct (put_split _ i (Running _ j) w0 E) as (a & b & EW & ->). rewrite EW in Q. rewrite !dones_app, !dones_cons in *. intros D.
      assert (X : 0 < dones a + ((if is_done w0 then 1 else 0) + dones b)) by (cbn [is_done] in D; lia). discriminate (Q X). }
    destruct (nth_error (workers _ p) i) as [[| | | j |] |] eqn:E; try discriminate; injection H as <-.
    + rewrite SN, andb_false_r. apply (T Top); auto.
    + rewrite SN. apply (T Woken); auto.
    + flat. destruct (put_split _ i Top _ E) as (a & b & EW & ->). rewrite EW in Q. rewrite !dones_app, !dones_cons in *. cbn [is_done] in *. auto.
  - unfold wake_one in H. destruct (nth_error (workers _ p) i) as [[| | | j |] |] eqn:E; try discriminate; injection H as <-. flat.
    destruct (put_split _ i Woken _ E) as (a & b & EW & ->). rewrite EW in Q. rewrite !dones_app, !dones_cons in *. cbn [is_done] in *. auto.
  - injection H as <-. unfold request. flat. rewrite dones_wake. auto.
Qed.
Lemma settled_run (l : list (event job)) : forall p p', Forall no_push l -> Forall not_now l -> settled p -> run _ p l = Some p' -> settled p'.
Proof.
  induction l as [| e l IH]; intros p p' NP NN I H; cbn [run] in H; [injection H as <-; auto |].
  destruct (step _ p e) as [p1 |] eqn:S1; [| discriminate]. eapply IH; [exact (Forall_inv_tail NP) | exact (Forall_inv_tail NN) | | exact H]. eapply settled_step; [exact (Forall_inv NP) | exact (Forall_inv NN) | exact I | exact S1].
Qed.
Lemma quiet_run (l : list (event job)) : forall p p', Forall no_request l -> run _ p l = Some p' -> stop _ p' = stop _ p /\ stop_now _ p' = stop_now _ p.
Proof.
  induction l as [| e l IH]; intros p p' NR H; cbn [run] in H; [injection H as <-; auto |].
  destruct (step _ p e) as [p1 |] eqn:S1; [| discriminate]. destruct (stops_step _ _ _ S1) as (_ & _ & _ & _ & NW & _). destruct (NW (Forall_inv NR)) as [<- <-]. apply (IH p1 p' (Forall_inv_tail NR) H).
Qed.
(** After a call to stop, the pool knows of it. *)
Lemma asked_run now (l : list (event job)) : forall p p', In (Request now) l \/ stop _ p = true \/ stop_now _ p = true -> run _ p l = Some p' -> stop _ p' = true \/ stop_now _ p' = true.
Proof.
  induction l as [| e l IH]; intros p p' A H; cbn [run] in H; [injection H as <-; destruct A as [[] |]; auto |].
  destruct (step _ p e) as [p1 |] eqn:S1; [| discriminate]. destruct (stops_step _ _ _ S1) as (M1 & M2 & _). apply (IH p1 p'); [| exact H].
  destruct A as [[-> | A] | [A | A]]; auto. right. cbn [step] in S1. injection S1 as <-. cbn [request stop stop_now]. destruct now; cbn [negb]; rewrite ?orb_true_r; auto.
Qed.
Lemma all_done l : dones l = length l -> running l = [].
Proof.
  induction l as [| w l IH]; [reflexivity |]. rewrite dones_cons. cbn [length]. pose proof (dones_le l). intros E. destruct w; cbn [is_done] in E; try lia. cbn [running]. apply IH. lia.
Qed.

(** ** Progress *)
Definition wt (w : place job) : nat := match w with Top => 3 | Waiting => 2 | Woken => 1 | Running _ _ => 4 | Done => 0 end.
Definition wsum (f : place job -> nat) l : nat := fold_right (fun w n => f w + n) 0 l.
Lemma wsum_app f a b : wsum f (a ++ b) = wsum f a + wsum f b. Proof. induction a as [| w a IH]; cbn [app wsum fold_right]; [reflexivity |]. unfold wsum in *. rewrite IH. lia. Qed.
Lemma wsum_cons f w l : wsum f (w :: l) = f w + wsum f l. Proof. reflexivity. Qed.
Lemma wsum_put f l i w w0 : nth_error l i = Some w0 -> wsum f (put _ i w l) + f w0 = wsum f l + f w.
Proof. intros E. destruct (put_split l i w w0 E) as (a & b & -> & ->). rewrite !wsum_app, !wsum_cons. lia. Qed.
Definition measure p : nat := 4 * length (queue _ p) + wsum wt (workers _ p).
Lemma measure_bound p : measure p <= 4 * (length (queue _ p) + length (workers _ p)).
Proof. unfold measure. assert (wsum wt (workers _ p) <= 4 * length (workers _ p)); [| lia]. induction (workers _ p) as [| w l IH]; [cbn; lia |]. rewrite wsum_cons. cbn [length]. destruct w; cbn [wt]; lia. Qed.
Lemma measure_step p e p' : stop _ p = true \/ stop_now _ p = true -> is_work_or_wake e -> step _ p e = Some p' -> measure p' < measure p.
Proof.
  intros ST W H. destruct e as [i | i | j | now]; cbn [step is_work_or_wake] in *; try contradiction; unfold measure.
  - unfold work in H. destruct (nth_error (workers _ p) i) as [w0 |] eqn:E; [| discriminate].
    assert (P := fun w => wsum_put wt _ i w w0 E).
    destruct w0 as [| | | j |]; try discriminate; injection H as <-; cbn [wt] in P.
    + destruct (fixed _ p && stop_now _ p); [specialize (P Done); flat; cbn [wt] in P; lia |].
      unfold take. destruct (queue _ p) as [| j q] eqn:Q; [destruct (stop _ p) |]; flat; rewrite ?Q; cbn [length]; [specialize (P Done) | specialize (P Waiting) | specialize (P (Running _ j))]; cbn [wt] in P; lia.
    + destruct (stop_now _ p) eqn:SN; [specialize (P Done); flat; cbn [wt] in P; lia |]. destruct ST as [ST | ST]; [| discriminate].
      unfold take. rewrite ST. destruct (queue _ p) as [| j q] eqn:Q; flat; rewrite ?Q; cbn [length]; [specialize (P Done) | specialize (P (Running _ j))]; cbn [wt] in P; lia.
    + flat. specialize (P Top). cbn [wt] in P. lia.
  - unfold wake_one in H. destruct (nth_error (workers _ p) i) as [[| | | j |] |] eqn:E; try discriminate; injection H as <-. flat.
    assert (P := wsum_put wt _ i Woken _ E). cbn [wt] in P. lia.
Qed.
Lemma measure_run (l : list (event job)) : forall p p', stop _ p = true \/ stop_now _ p = true -> Forall is_work_or_wake l -> run _ p l = Some p' -> length l + measure p' <= measure p.
Proof.
  induction l as [| e l IH]; intros p p' ST F H; cbn [run] in H; [injection H as <-; cbn; lia |].
  destruct (step _ p e) as [p1 |] eqn:S1; [| discriminate]. destruct (stops_step _ _ _ S1) as (A & B & _).
  pose proof (measure_step _ _ _ ST (Forall_inv F) S1). specialize (IH p1 p' ltac:(tauto) (Forall_inv_tail F) H). cbn [length]. lia.
Qed.
Lemma stuck_done p : (forall e, is_work_or_wake e -> step _ p e = None) -> dones (workers _ p) = length (workers _ p).
Proof.
  intros ST. assert (A : forall i w, nth_error (workers _ p) i = Some w -> w = Done).
  { intros i w E. pose proof (ST (Work i) I) as W. pose proof (ST (Wake i) I) as K. cbn [step] in *. unfold work, wake_one in *. rewrite E in *. destruct w; auto; discriminate. }
  clear ST. induction (workers _ p) as [| w l IH]; [reflexivity |]. rewrite dones_cons. cbn [length]. rewrite (A 0 w eq_refl). cbn [is_done]. rewrite IH; [reflexivity |]. intros i v E. apply (A (S i) v). exact E.
Qed.

Definition wt2 (w : place job) : nat := match w with Top => 1 | Waiting => 0 | Woken => 1 | Running _ _ => 2 | Done => 0 end.
Definition measure2 p : nat := 2 * length (queue _ p) + wsum wt2 (workers _ p).
Lemma measure2_bound p : measure2 p <= 2 * (length (queue _ p) + length (workers _ p)).
Proof. unfold measure2. assert (wsum wt2 (workers _ p) <= 2 * length (workers _ p)); [| lia]. induction (workers _ p) as [| w l IH]; [cbn; lia |]. rewrite wsum_cons. cbn [length]. destruct w; cbn [wt2]; lia. Qed.
Lemma measure2_step p e p' : is_work e -> step _ p e = Some p' -> measure2 p' < measure2 p.
Proof.
  intros W H. destruct e as [i | i | j | now]; cbn [step is_work] in *; try contradiction; unfold measure2.
  unfold work in H. destruct (nth_error (workers _ p) i) as [w0 |] eqn:E; [| discriminate].
  assert (P := fun w => wsum_put wt2 _ i w w0 E).
  destruct w0 as [| | | j |]; try discriminate; injection H as <-; cbn [wt2] in P.
  - destruct (fixed _ p && stop_now _ p); [specialize (P Done); flat; cbn [wt2] in P; lia |].
    unfold take. destruct (queue _ p) as [| j q] eqn:Q; [destruct (stop _ p) |]; flat; rewrite ?Q; cbn [length]; [specialize (P Done) | specialize (P Waiting) | specialize (P (Running _ j))]; cbn [wt2] in P; lia.
  - destruct (stop_now _ p); [specialize (P Done); flat; cbn [wt2] in P; lia |].
    unfold take. destruct (queue _ p) as [| j q] eqn:Q; [destruct (stop _ p) |]; flat; rewrite ?Q; cbn [length]; [specialize (P Done) | specialize (P Waiting) | specialize (P (Running _ j))]; cbn [wt2] in P; lia.
  - flat. specialize (P Top). cbn [wt2] in P. lia.
Qed.
Lemma measure2_run (l : list (event job)) : forall p p', Forall is_work l -> run _ p l = Some p' -> length l + measure2 p' <= measure2 p.
Proof.
  induction l as [| e l IH]; intros p p' F H; cbn [run] in H; [injection H as <-; cbn; lia |].
  destruct (step _ p e) as [p1 |] eqn:S1; [| discriminate].
  pose proof (measure2_step _ _ _ (Forall_inv F) S1). specialize (IH p1 p' (Forall_inv_tail F) H). cbn [length]. lia.
Qed.
Lemma stuck_waiting p : (forall i, work _ p i = None) -> dones (workers _ p) = 0 -> waits (workers _ p) = length (workers _ p) /\ running (workers _ p) = [].
Proof.
  intros ST D. assert (A : forall i w, nth_error (workers _ p) i = Some w -> w = Done \/ w = Waiting).
  { intros i w E. pose proof (ST i) as W. unfold work in *. rewrite E in *. destruct w; auto; discriminate. }
  clear ST. induction (workers _ p) as [| w l IH]; [split; reflexivity |]. rewrite dones_cons in D. rewrite waits_cons. cbn [length].
  destruct (A 0 w eq_refl) as [-> | ->]; cbn [is_done is_waiting running] in *; [lia |]. destruct IH as [IH1 IH2]; [lia | intros i v E; apply (A (S i) v); exact E |]. split; [lia | exact IH2].
Qed.
End Proofs.
