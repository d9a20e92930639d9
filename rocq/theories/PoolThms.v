(** C157-C160: thread pools. *)
From Coq Require Import Arith List Bool Permutation Lia.
From Verif Require Import PoolModel PoolSpec PoolProofs.
Import ListNotations.

(** ** C157: every job accepted is started at most once, and nothing else is; the queue never overflows. *)
Theorem C157_once : forall job f size n evs (p : pool job), run job (init job f size n n) evs = Some p ->
  Permutation (jobs evs) (queue job p ++ running (workers job p) ++ ended job p) /\ Permutation (started job p) (running (workers job p) ++ ended job p) /\ length (queue job p) <= size.
Proof.
  intros job f size n evs p R. pose proof (inv_run job n n evs (Nat.le_refl _) _ _ (inv_init job f size n n) R) as (_ & _ & _ & _ & Q & P1 & P2).
  pose proof (run_pushed job _ _ _ R) as E. cbn [init pushed] in E. rewrite app_nil_r in E.
  assert (P3 : Permutation (started job p) (running (workers job p) ++ ended job p)) by (eapply perm_trans; [exact P2 | apply Permutation_app_comm]).
  split; [| split; [exact P3 |]].
  - eapply perm_trans; [apply Permutation_rev |]. rewrite <- E. eapply perm_trans; [exact P1 |]. eapply perm_trans; [apply Permutation_app_comm |]. apply Permutation_app_head, P3.
  - enough (SZ : PoolModel.size job p = size) by (rewrite <- SZ; exact Q).
    assert (G : forall l (a b : pool job), run job a l = Some b -> PoolModel.size job b = PoolModel.size job a).
    { induction l as [| e l IH]; intros a b H; cbn [run] in H; [injection H as <-; reflexivity |]. destruct (step job a e) as [a1 |] eqn:S1; [| discriminate]. destruct (stops_step job _ _ _ S1) as (_ & _ & _ & <- & _). apply (IH a1 b H). }
    exact (G _ _ _ R).
Qed.
Example C157_once_ex : exists p, run nat (init nat true 3 2 2) [Push nat 7; Work 0; Push nat 8; Push nat 9; Work 1; Work 0] = Some p /\ queue nat p = [8] /\ running (workers nat p) = [9] /\ ended nat p = [7].
Proof. eexists. split; [vm_compute; reflexivity |]. vm_compute; auto. Qed.
Print Assumptions C157_once.

(** ** C158: when stop_and_destroy returns, every job accepted has been run to its end, and no worker is left; when destroy of a FixedThreadPool
    is called, no job is started any more. *)
Theorem C158_stop : forall job f size n a b (p : pool job), 0 < n -> Forall no_request a -> Forall no_push b -> Forall not_now b ->
  run job (init job f size n n) (a ++ Request false :: b) = Some p -> returns job p = true ->
  Permutation (jobs a) (ended job p) /\ queue job p = [] /\ (forall i, work job p i = None).
Proof.
  intros job f size n a b p N NR NP NN R RT. rewrite run_app in R. destruct (run job (init job f size n n) a) as [p0 |] eqn:R0; [| discriminate].
  change (Request false :: b) with ([Request false] ++ b) in R. rewrite run_app in R. cbn [run step] in R.
  pose proof (inv_run job n n a (Nat.le_refl _) _ _ (inv_init job f size n n) R0) as I0.
  destruct (quiet_run job _ _ _ NR R0) as [Q1 Q2]. cbn [init stop stop_now] in Q1, Q2.
  assert (S0 : settled job (request job p0 false)).
  { split; [cbn [request stop_now]; rewrite Q2; reflexivity |]. cbn [request workers queue]. rewrite dones_wake. destruct I0 as (_ & _ & _ & D & _). intros X. destruct (D X); congruence. }
  destruct (settled_run job _ _ _ NP NN S0 R) as [_ SQ].
  pose proof (inv_step job n n p0 (Request false) _ (Nat.le_refl _) I0 eq_refl) as I1.
  pose proof (inv_run job n n b (Nat.le_refl _) _ _ I1 R) as (L & NT & _ & _ & _ & P1 & P2).
  apply Nat.eqb_eq in RT. assert (AD : dones job (workers job p) = length (workers job p)) by lia.
  assert (QE : queue job p = []) by (apply SQ; lia). rewrite QE, app_nil_r in P1. rewrite (all_done job _ AD), app_nil_r in P2.
  assert (E : pushed job p = rev (jobs a)).
  { rewrite (run_pushed job _ _ _ R). cbn [request pushed]. rewrite (run_pushed job _ _ _ R0). cbn [init pushed]. rewrite app_nil_r.
    replace (jobs b) with (@nil job); [reflexivity |]. clear - NP. induction b as [| e b IH]; [reflexivity |]. inversion NP; subst. destruct e; cbn [jobs no_push] in *; auto; contradiction. }
  split; [| split; [exact QE |]].
  - eapply perm_trans; [apply Permutation_rev |]. rewrite <- E. eapply perm_trans; [exact P1 | exact P2].
  - intros i. unfold work. destruct (nth_error (workers job p) i) as [w |] eqn:W; [| reflexivity].
    enough (w = Done) by (subst; reflexivity). clear - AD W. revert i W. induction (workers job p) as [| v l IH]; intros [| i] W; try discriminate; rewrite dones_cons in AD; cbn [length] in AD; pose proof (dones_le job l); cbn [nth_error] in W.
    + injection W as ->. destruct w; cbn [is_done] in AD; auto; lia.
    + apply (IH) with (i := i); [destruct v; cbn [is_done] in AD; lia | exact W].
Qed.
Example C158_stop_ex : exists p, run nat (init nat false 3 1 1) ([Push nat 7; Push nat 8] ++ Request false :: [Work 0; Work 0; Work 0; Work 0; Work 0]) = Some p /\ returns nat p = true /\ ended nat p = [7; 8].
Proof. eexists. split; [vm_compute; reflexivity |]. vm_compute; auto. Qed.
Print Assumptions C158_stop.
Theorem C158_destroy_fixed : forall job size n evs evs' (p p' : pool job), run job (init job true size n n) evs = Some p ->
  run job (request job p true) evs' = Some p' -> started job p' = started job p.
Proof.
  intros job size n evs evs' p p' R R'. rewrite (drop_run job evs' (request job p true) p'); auto; [| cbn [request stop_now]; apply orb_true_r].
  cbn [request fixed]. assert (G : forall l (a b : pool job), run job a l = Some b -> fixed job b = fixed job a).
  { induction l as [| e l IH]; intros a b H; cbn [run] in H; [injection H as <-; reflexivity |]. destruct (step job a e) as [a1 |] eqn:S1; [| discriminate]. destruct (stops_step job _ _ _ S1) as (_ & _ & <- & _). apply (IH a1 b H). }
  exact (G _ _ _ R).
Qed.
Example C158_destroy_ex : exists p p', run nat (init nat true 3 1 1) [Push nat 7; Push nat 8; Work 0] = Some p /\ run nat (request nat p true) [Work 0; Work 0] = Some p' /\ returns nat p' = true /\ queue nat p' = [7].
Proof. do 2 eexists. split; [vm_compute; reflexivity |]. split; [vm_compute; reflexivity |]. vm_compute; auto. Qed.
Print Assumptions C158_destroy_fixed.
(** destroy of a ThreadPool: a worker that was busy goes on with the jobs that should be dropped. *)
Theorem C158_destroy_refuted : exists evs evs' (p p' : pool nat), run nat (init nat false 3 1 1) evs = Some p /\ run nat (request nat p true) evs' = Some p' /\ started nat p = [8] /\ started nat p' = [7; 8].
Proof. exists [Push nat 7; Push nat 8; Work 0], [Work 0; Work 0]. do 2 eexists. split; [vm_compute; reflexivity |]. split; [vm_compute; reflexivity |]. vm_compute; auto. Qed.
Print Assumptions C158_destroy_refuted.

(** ** C159: a shutdown returns: after a call of destroy or stop_and_destroy ([Request]), without new jobs there are only finitely many steps of workers and wake-ups, and when none is left, all
    workers have gone.  Missing: an initialisation that failed. *)
Theorem C159_shutdown_ends_partial : forall job f size n evs (p : pool job) evs' (p' : pool job) now, run job (init job f size n n) evs = Some p -> In (Request now) evs ->
  Forall is_work_or_wake evs' -> run job p evs' = Some p' ->
  length evs' <= 4 * (length (queue job p) + n) /\ ((forall e, is_work_or_wake e -> step job p' e = None) -> returns job p' = true).
Proof.
  intros job f size n evs p evs' p' now R AS W R'. pose proof (asked_run job now evs _ _ (or_introl AS) R) as ST. pose proof (inv_run job n n evs (Nat.le_refl _) _ _ (inv_init job f size n n) R) as I0.
  pose proof (inv_run job n n evs' (Nat.le_refl _) _ _ I0 R') as (L & NT & _). split.
  - pose proof (measure_run job evs' p p' ST W R'). pose proof (measure_bound job p). destruct I0 as (L0 & _). lia.
  - intros SK. pose proof (stuck_done job p' SK). apply Nat.eqb_eq. lia.
Qed.
Example C159_ex : exists p p', run nat (init nat false 3 2 2) [Work 0; Work 1; Push nat 7; Request true] = Some p /\ run nat p [Work 0; Work 1] = Some p' /\ returns nat p' = true.
Proof. do 2 eexists. split; [vm_compute; reflexivity |]. split; vm_compute; reflexivity. Qed.
Print Assumptions C159_shutdown_ends_partial.
(** If a thread could not be created, init calls destroy, and that never returns. *)
Theorem C159_init_refuted : forall job f size wanted threads evs (p : pool job), threads < wanted -> run job (init job f size wanted threads) evs = Some p -> returns job p = false.
Proof.
  intros job f size wanted threads evs p LT R. pose proof (inv_run job wanted threads evs (Nat.lt_le_incl _ _ LT) _ _ (inv_init job f size wanted threads) R) as (L & NT & _).
  pose proof (dones_le job (workers job p)). apply Nat.eqb_neq. lia.
Qed.
Example C159_init_ex : exists p, run nat (init nat true 3 2 1) [Request true; Work 0] = Some p /\ workers nat p = [Done] /\ returns nat p = false.
Proof. eexists. split; [vm_compute; reflexivity |]. vm_compute; auto. Qed.
Print Assumptions C159_init_refuted.

(** ** C160: no job is forgotten: as long as jobs are queued no worker waits; left alone, the workers run all jobs to their end after finitely many steps. *)
Theorem C160_no_lost_job : forall job f size n evs (p : pool job) evs' (p' : pool job), 0 < n -> Forall no_request evs -> run job (init job f size n n) evs = Some p ->
  Forall is_work evs' -> run job p evs' = Some p' ->
  (queue job p' <> [] -> exists i, work job p' i <> None) /\ length evs' <= 2 * (length (queue job p) + n) /\
  ((forall i, work job p' i = None) -> Permutation (jobs evs) (ended job p')).
Proof.
  intros job f size n evs p evs' p' N NR R W R'. pose proof (inv_run job n n evs (Nat.le_refl _) _ _ (inv_init job f size n n) R) as I0.
  pose proof (inv_run job n n evs' (Nat.le_refl _) _ _ I0 R') as (L & NT & NW & D & _ & P1 & P2).
  destruct (quiet_run job _ _ _ NR R) as [Q1 Q2]. cbn [init stop stop_now] in Q1, Q2.
  assert (NR' : Forall no_request evs') by (eapply Forall_impl; [| exact W]; intros [| | |]; cbn; tauto).
  destruct (quiet_run job _ _ _ NR' R') as [Q3 Q4].
  assert (D0 : dones job (workers job p') = 0) by (destruct (dones job (workers job p')) eqn:DD; auto; destruct (D ltac:(lia)); congruence).
  assert (SQ : (forall i, work job p' i = None) -> queue job p' = [] /\ running (workers job p') = []).
  { intros SK. destruct (stuck_waiting job p' SK D0) as [W1 W2]. split; auto. destruct (queue job p') eqn:Q; auto. specialize (NW ltac:(discriminate)). lia. }
  split; [| split].
  - intros Q. destruct (workers job p') as [| w l] eqn:WE; [cbn [length] in L; lia |]. exists 0. unfold work. rewrite WE. cbn [nth_error]. specialize (NW Q). rewrite waits_cons in NW. rewrite dones_cons in D0.
    destruct w; cbn [is_waiting is_done] in *; try discriminate; lia.
  - pose proof (measure2_run job evs' p p' W R'). pose proof (measure2_bound job p). destruct I0 as (L0 & _). lia.
  - intros SK. destruct (SQ SK) as [Q RN]. rewrite Q, app_nil_r in P1. rewrite RN, app_nil_r in P2.
    assert (E : pushed job p' = rev (jobs evs)).
    { rewrite (run_pushed job _ _ _ R'), (run_pushed job _ _ _ R). cbn [init pushed]. rewrite app_nil_r.
      replace (jobs evs') with (@nil job); [reflexivity |]. clear - W. induction evs' as [| e b IH]; [reflexivity |]. inversion W; subst. destruct e; cbn [jobs is_work] in *; auto; contradiction. }
    eapply perm_trans; [apply Permutation_rev |]. rewrite <- E. eapply perm_trans; [exact P1 | exact P2].
Qed.
Example C160_ex : exists p p', run nat (init nat false 3 2 2) [Work 0; Work 1; Push nat 7; Push nat 8] = Some p /\ run nat p [Work 0; Work 1; Work 1; Work 1; Work 0; Work 0] = Some p' /\
  workers nat p' = [Waiting; Waiting] /\ ended nat p' = [8; 7].
Proof. do 2 eexists. split; [vm_compute; reflexivity |]. split; [vm_compute; reflexivity |]. vm_compute; auto. Qed.
Print Assumptions C160_no_lost_job.
