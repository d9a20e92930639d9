(** Proofs about the buffered channel: what a step can be, mutual exclusion, the buffer as a queue, histories. *)
From Coq Require Import List Arith Bool Lia.
From Verif Require Import ChanModel ChanSpec.
Import ListNotations.

Section P.
Context {V : Type}.
Implicit Types (s : st V) (t : thread V) (o : op V) (p : pc V).

Lemma some_inj {A} (x y : A) : Some x = Some y -> x = y.
Proof. congruence. Qed.
Lemma put_length {A} (l : list A) : forall i x, length (put l i x) = length l.
Proof. induction l as [|a l IH]; intros [|i] x; cbn; auto. Qed.
Lemma nth_put {A} (l : list A) : forall i j x, i < length l -> nth_error (put l i x) j = if Nat.eqb i j then Some x else nth_error l j.
Proof. induction l as [|a l IH]; intros [|i] [|j] x H; cbn in *; try lia; try reflexivity. apply IH. lia. Qed.
Lemma nth_len {A} (l : list A) i x : nth_error l i = Some x -> i < length l.
Proof. intros H. apply nth_error_Some. congruence. Qed.

(** The possible steps of thread [i], one constructor each: [W] is what the step does to the other threads (waking some), [t'] the thread afterwards. *)
Inductive wakes (l l' : list (thread V)) (sl : thread V -> bool) : Prop :=
| wk_one j t : nth_error l j = Some t -> sl t = true -> l' = put l j (wake t) -> wakes l l' sl
| wk_none : existsb sl l = false -> l' = l -> wakes l l' sl.

Inductive mv s i t : st V -> Prop :=
| m_begin o r : at_ t = Idle -> prog t = o :: r -> mv s i t (set_ths s (put (ths s) i (Th r (AtLock o) (hist t))))
| m_lock o : at_ t = AtLock o -> mu s = None -> o <> Close -> mv s i t (goto (set_mu s (Some i)) i t (Check o))
| m_lockc : at_ t = AtLock Close -> mu s = None -> mv s i t (goto (set_mu s (Some i)) i t (Act Close))
| m_sleep_push v : at_ t = Check (Push v) -> elems s = size s -> closed s = false ->
    mv s i t (goto (set_mu (set_waiting s (S (send_waiting s)) (read_waiting s)) None) i t (Asleep (Push v)))
| m_go_push v : at_ t = Check (Push v) -> (elems s <> size s \/ closed s = true) -> mv s i t (goto s i t (Act (Push v)))
| m_sleep_pop : at_ t = Check Pop -> elems s = 0 -> closed s = false ->
    mv s i t (goto (set_mu (set_waiting s (send_waiting s) (S (read_waiting s))) None) i t (Asleep Pop))
| m_go_pop : at_ t = Check Pop -> (elems s <> 0 \/ closed s = true) -> mv s i t (goto s i t (Act Pop))
| m_woken_push v : at_ t = Woken (Push v) -> mu s = None ->
    mv s i t (goto (set_mu (set_waiting s (pred (send_waiting s)) (read_waiting s)) (Some i)) i t (Check (Push v)))
| m_woken_pop o : at_ t = Woken o -> (forall v, o <> Push v) -> mu s = None ->
    mv s i t (goto (set_mu (set_waiting s (send_waiting s) (pred (read_waiting s))) (Some i)) i t (Check o))
| m_push_closed v : at_ t = Act (Push v) -> closed s = true -> mv s i t (add_log (goto s i t (Release (Push v) RClosed)) i (Push v) RClosed)
| m_push v : at_ t = Act (Push v) -> closed s = false -> sendx s < length (buf s) ->
    mv s i t (add_log (goto (St (size s) (S (elems s)) (if Nat.eqb (S (sendx s)) (size s) then 0 else S (sendx s)) (readx s) (send_waiting s) (read_waiting s) (closed s)
                 (put (buf s) (sendx s) v) (mu s) (ths s) (log s)) i t (Signal (Push v) ROk)) i (Push v) ROk)
| m_pop_closed : at_ t = Act Pop -> closed s = true -> elems s = 0 -> mv s i t (add_log (goto s i t (Release Pop RClosed)) i Pop RClosed)
| m_pop v : at_ t = Act Pop -> (closed s = false \/ elems s <> 0) -> nth_error (buf s) (readx s) = Some v ->
    mv s i t (add_log (goto (St (size s) (pred (elems s)) (sendx s) (if Nat.eqb (S (readx s)) (size s) then 0 else S (readx s)) (send_waiting s) (read_waiting s)
                 (closed s) (buf s) (mu s) (ths s) (log s)) i t (Signal Pop (RVal v))) i Pop (RVal v))
| m_close : at_ t = Act Close ->
    mv s i t (add_log (goto (St (size s) (elems s) (sendx s) (readx s) (send_waiting s) (read_waiting s) true (buf s) (mu s) (ths s) (log s)) i t (Signal Close ROk)) i Close ROk)
| m_sig_push v r l : at_ t = Signal (Push v) r -> 0 < read_waiting s -> wakes (ths s) l sleeps_read -> mv s i t (goto (set_ths s l) i t (Release (Push v) r))
| m_nosig_push v r : at_ t = Signal (Push v) r -> read_waiting s = 0 -> mv s i t (goto s i t (Release (Push v) r))
| m_sig_pop r l : at_ t = Signal Pop r -> 0 < send_waiting s -> wakes (ths s) l sleeps_send -> mv s i t (goto (set_ths s l) i t (Release Pop r))
| m_nosig_pop r : at_ t = Signal Pop r -> send_waiting s = 0 -> mv s i t (goto s i t (Release Pop r))
| m_bcast r : at_ t = Signal Close r -> mv s i t (goto (set_ths s (map wake (ths s))) i t (Release Close r))
| m_release o r : at_ t = Release o r -> mv s i t (set_ths (set_mu s None) (put (ths s) i (Th (prog t) Idle (hist t ++ [(o, r)])))).

Lemma signal_wakes sl s j s1 : signal sl s j = Some s1 -> exists l, s1 = set_ths s l /\ wakes (ths s) l sl.
Proof.
  unfold signal. assert (X : s = set_ths s (ths s)) by (destruct s; reflexivity).
  destruct (nth_error (ths s) j) as [t|] eqn:G.
  - destruct (sl t) eqn:E; [intros [= <-]; eexists; split; [reflexivity|]; eapply wk_one; eauto|].
    destruct (existsb sl (ths s)) eqn:B; [discriminate|]. intros [= <-]. exists (ths s). split; [exact X|]. apply wk_none; auto.
  - destruct (existsb sl (ths s)) eqn:B; [discriminate|]. intros [= <-]. exists (ths s). split; [exact X|]. apply wk_none; auto.
Qed.

Lemma move_mv s i j s' : move s i j = Some s' -> exists t, nth_error (ths s) i = Some t /\ mv s i t s'.
Proof.
  intros E. unfold move in E. destruct (nth_error (ths s) i) as [t|] eqn:G; [|discriminate]. exists t. split; [reflexivity|].
  destruct (at_ t) as [|o|o|o|o|o|o r|o r] eqn:A.
  - destruct (prog t) as [|o r] eqn:P; [discriminate|]. injection E as <-. eapply m_begin; eauto.
  - destruct (mu s) eqn:M; [discriminate|]. injection E as <-. destruct o; [apply m_lock|apply m_lock|apply m_lockc]; auto; discriminate.
  - destruct o as [v| |]; [| |discriminate].
    + destruct (Nat.eqb_spec (elems s) (size s)); cbn [andb] in E; [|injection E as <-; eapply m_go_push; eauto].
      destruct (closed s) eqn:C; cbn [negb] in E; injection E as <-; [eapply m_go_push; eauto|eapply m_sleep_push; eauto].
    + destruct (Nat.eqb_spec (elems s) 0); cbn [andb] in E; [|injection E as <-; eapply m_go_pop; eauto].
      destruct (closed s) eqn:C; cbn [negb] in E; injection E as <-; [eapply m_go_pop; eauto|eapply m_sleep_pop; eauto].
  - discriminate.
  - destruct (mu s) eqn:M; [discriminate|]. injection E as <-. destruct o; [eapply m_woken_push; eauto|eapply m_woken_pop; eauto; discriminate|eapply m_woken_pop; eauto; discriminate].
  - destruct o as [v| |].
    + unfold act_push in E. destruct (closed s) eqn:C; [injection E as <-; eapply m_push_closed; eauto|].
      destruct (Nat.ltb_spec (sendx s) (length (buf s))); [|discriminate]. apply some_inj in E. rewrite <- E, <- C. eapply m_push; eauto.
    + unfold act_pop in E. destruct (closed s) eqn:C; cbn [andb] in E.
      * destruct (Nat.eqb_spec (elems s) 0); [injection E as <-; eapply m_pop_closed; eauto|]. destruct (nth_error (buf s) (readx s)) eqn:B; [|discriminate]. apply some_inj in E. rewrite <- E, <- C. eapply m_pop; eauto.
      * destruct (nth_error (buf s) (readx s)) eqn:B; [|discriminate]. apply some_inj in E. rewrite <- E, <- C. eapply m_pop; eauto.
    + injection E as <-. eapply m_close; eauto.
  - destruct o as [v| |].
    + destruct (Nat.ltb_spec 0 (read_waiting s)); [|injection E as <-; eapply m_nosig_push; eauto; lia].
      destruct (signal sleeps_read s j) as [s1|] eqn:Q; [|discriminate]. injection E as <-. destruct (signal_wakes _ _ _ _ Q) as (l & -> & W). eapply m_sig_push; eauto.
    + destruct (Nat.ltb_spec 0 (send_waiting s)); [|injection E as <-; eapply m_nosig_pop; eauto; lia].
      destruct (signal sleeps_send s j) as [s1|] eqn:Q; [|discriminate]. injection E as <-. destruct (signal_wakes _ _ _ _ Q) as (l & -> & W). eapply m_sig_pop; eauto.
    + injection E as <-. eapply m_bcast; eauto.
  - injection E as <-. eapply m_release; eauto.
Qed.

(** What a step does to the threads: the thread itself becomes [t'], the others are left alone or woken. *)
Definition woke (x y : thread V) : Prop := x = y \/ (y = wake x /\ exists o, at_ x = Asleep o).
Lemma wakes_nth l l' sl k x : wakes l l' sl -> (forall t, sl t = true -> exists o, at_ t = Asleep o) -> nth_error l' k = Some x -> exists y, nth_error l k = Some y /\ woke y x.
Proof.
  intros W S G. destruct W as [j t Gj E ->|_ ->]; [|exists x; split; [exact G|left; reflexivity]].
  rewrite nth_put in G by (eapply nth_len; eauto). destruct (Nat.eqb_spec j k) as [<-|]; [|exists x; split; [exact G|left; reflexivity]].
  injection G as <-. exists t. split; [exact Gj|]. right. split; [reflexivity|]. apply S, E.
Qed.
Lemma wakes_len l l' sl : wakes l l' sl -> length l' = length l.
Proof. intros [j t _ _ ->|_ ->]; [apply put_length|reflexivity]. Qed.
Lemma wake_all_nth l k x : nth_error (map wake l) k = Some x -> exists y, nth_error l k = Some y /\ woke y x.
Proof.
  rewrite nth_error_map. destruct (nth_error l k) as [y|]; [|discriminate]. intros [= <-]. exists y. split; [reflexivity|].
  unfold woke. unfold wake. destruct (at_ y) eqn:A; auto. right. eauto.
Qed.
Lemma sr_asleep t : sleeps_read t = true -> exists o, at_ t = Asleep o.
Proof. unfold sleeps_read. destruct (at_ t); try discriminate. eauto. Qed.
Lemma ss_asleep t : sleeps_send t = true -> exists o, at_ t = Asleep o.
Proof. unfold sleeps_send. destruct (at_ t); try discriminate. eauto. Qed.

Lemma mv_others s i t s' : nth_error (ths s) i = Some t -> mv s i t s' ->
  length (ths s') = length (ths s) /\ forall k x, nth_error (ths s') k = Some x -> k <> i -> exists y, nth_error (ths s) k = Some y /\ woke y x.
Proof.
  intros G M. pose proof (nth_len _ _ _ G) as L.
  assert (OWN : forall t', length (put (ths s) i t') = length (ths s) /\ (forall k x, nth_error (put (ths s) i t') k = Some x -> k <> i -> exists y, nth_error (ths s) k = Some y /\ woke y x)).
  { intros t'. rewrite put_length. split; [reflexivity|]. intros k x Gk N. rewrite nth_put in Gk by exact L. destruct (Nat.eqb_spec i k); [congruence|].
    exists x. split; [exact Gk|left; reflexivity]. }
  assert (OTH : forall l t', length l = length (ths s) -> (forall k x, nth_error l k = Some x -> exists y, nth_error (ths s) k = Some y /\ woke y x) ->
    length (put l i t') = length (ths s) /\ (forall k x, nth_error (put l i t') k = Some x -> k <> i -> exists y, nth_error (ths s) k = Some y /\ woke y x)).
  { intros l t' El W. rewrite put_length. split; [exact El|]. intros k x Gk N. rewrite nth_put in Gk by lia. destruct (Nat.eqb_spec i k); [congruence|]. apply W, Gk. }
  destruct M; cbn [goto add_log set_ths set_mu set_waiting ths prog hist]; try apply OWN; apply OTH.
  - eapply wakes_len; eauto.
  - intros k x. eapply wakes_nth; eauto using sr_asleep.
  - eapply wakes_len; eauto.
  - intros k x. eapply wakes_nth; eauto using ss_asleep.
  - apply map_length.
  - intros k x. apply wake_all_nth.
Qed.
Lemma mv_self s i t s' : nth_error (ths s) i = Some t -> mv s i t s' -> exists t', nth_error (ths s') i = Some t'.
Proof.
  intros G M. pose proof (nth_len _ _ _ G) as L. destruct (mv_others s i t s' G M) as [E _]. rewrite <- E in L.
  destruct (nth_error (ths s') i) eqn:N; [eauto|]. apply nth_error_None in N. lia.
Qed.

(** Mutual exclusion. *)
Definition holding p : bool := match p with Check _ | Act _ | Signal _ _ | Release _ _ => true | _ => false end.
Definition i_lock s : Prop :=
  (forall i t, nth_error (ths s) i = Some t -> holding (at_ t) = true -> mu s = Some i) /\
  (forall i, mu s = Some i -> exists t, nth_error (ths s) i = Some t /\ holding (at_ t) = true).
Lemma woke_holding y x : woke y x -> holding (at_ x) = holding (at_ y).
Proof. intros [->|[-> [o A]]]; [reflexivity|]. unfold wake. rewrite A. reflexivity. Qed.

Lemma nth_put_same {A} (l : list A) i x : i < length l -> nth_error (put l i x) i = Some x.
Proof. intros H. rewrite nth_put, Nat.eqb_refl by exact H. reflexivity. Qed.
Lemma wakes_keep l l' sl k y : wakes l l' sl -> nth_error l k = Some y -> exists x, nth_error l' k = Some x /\ (x = y \/ x = wake y).
Proof.
  intros [j t Gj E ->|_ ->] G; [|eauto]. rewrite nth_put by (eapply nth_len; eauto). destruct (Nat.eqb_spec j k) as [<-|]; [|eauto].
  rewrite Gj in G. injection G as ->. eauto.
Qed.

(** The state of the thread itself and of the mutex after the step. *)
Lemma mv_lock s i t s' : nth_error (ths s) i = Some t -> mv s i t s' -> forall t', nth_error (ths s') i = Some t' ->
  match holding (at_ t), holding (at_ t') with
  | false, true => mu s = None /\ mu s' = Some i
  | true, false => mu s' = None
  | _, _ => mu s' = mu s
  end.
Proof.
  intros G M t' G'. pose proof (nth_len _ _ _ G) as L.
  destruct M; cbn [goto add_log set_ths set_mu set_waiting ths prog hist mu] in *;
    (rewrite nth_put_same in G' by (try erewrite wakes_len by eassumption; try rewrite map_length; exact L)); injection G' as <-; cbn [at_]; rewrite H; cbn [holding]; auto.
Qed.

Lemma lock_mv s i t s' : i_lock s -> nth_error (ths s) i = Some t -> mv s i t s' -> i_lock s'.
Proof.
  intros [I1 I2] G M. destruct (mv_self s i t s' G M) as [t' G']. pose proof (mv_lock s i t s' G M t' G') as X. destruct (mv_others s i t s' G M) as [EL OT]. split.
  - intros k x Gk Hx. destruct (Nat.eq_dec k i) as [->|N].
    + rewrite G' in Gk. injection Gk as <-. rewrite Hx in X. destruct (holding (at_ t)) eqn:E; [|apply X]. rewrite X. apply (I1 i t G E).
    + destruct (OT k x Gk N) as (y & Gy & Wy). rewrite (woke_holding _ _ Wy) in Hx. pose proof (I1 k y Gy Hx) as MK.
      destruct (holding (at_ t)) eqn:E; [pose proof (I1 i t G E); congruence|]. destruct (holding (at_ t')); [destruct X; congruence|congruence].
  - intros k MK. destruct (holding (at_ t)) eqn:E; destruct (holding (at_ t')) eqn:E'.
    + rewrite X in MK. pose proof (I1 i t G E). assert (k = i) by congruence. subst k. eauto.
    + congruence.
    + destruct X as [_ X]. assert (k = i) by congruence. subst k. eauto.
    + rewrite X in MK. destruct (I2 k MK) as (y & Gy & Hy). assert (N : k <> i) by (intros ->; congruence).
      destruct (nth_error (ths s') k) as [x|] eqn:Gx.
      * destruct (OT k x Gx N) as (y' & Gy' & Wy). rewrite Gy in Gy'. injection Gy' as <-. exists x. split; [reflexivity|]. rewrite (woke_holding _ _ Wy). exact Hy.
      * apply nth_error_None in Gx. pose proof (nth_len _ _ _ Gy). lia.
Qed.

(** The buffer holds the queue. *)
Definition ring s (b : list V) : Prop :=
  length (buf s) = size s /\ elems s = length b /\ length b <= size s /\ (size s = 0 -> readx s = 0) /\ (0 < size s -> readx s < size s) /\
  sendx s = (readx s + length b) mod size s /\ forall k, k < length b -> nth_error (buf s) ((readx s + k) mod size s) = nth_error b k.
Definition i_data s : Prop :=
  (exists b, legal (size s) (log s) b (closed s) /\ ring s b) /\
  (forall i t v, nth_error (ths s) i = Some t -> at_ t = Act (Push v) -> closed s = true \/ elems s <> size s) /\
  (forall i t, nth_error (ths s) i = Some t -> at_ t = Act Pop -> closed s = true \/ elems s <> 0).

Lemma next_mod x n : 0 < n -> x < n -> (if Nat.eqb (S x) n then 0 else S x) = S x mod n.
Proof.
  intros N L. destruct (Nat.eqb_spec (S x) n) as [E|E]; [rewrite E, Nat.mod_same; lia|rewrite Nat.mod_small; lia].
Qed.
Lemma mod_shift a k n : 0 < n -> (a mod n + k) mod n = (a + k) mod n.
Proof. intros N. rewrite Nat.add_mod_idemp_l by lia. reflexivity. Qed.
Lemma mod_distinct r a b n : a < b < n -> (r + a) mod n <> (r + b) mod n.
Proof.
  intros H E. assert (X : (b - a) mod n = 0).
  { assert (Y : ((r + a) + (b - a)) mod n = (r + a) mod n) by (rewrite E; f_equal; lia).
    rewrite <- Nat.add_mod_idemp_l in Y by lia. set (m := (r + a) mod n) in *. assert (m < n) by (apply Nat.mod_upper_bound; lia).
    destruct (Nat.lt_ge_cases (m + (b - a)) n); [rewrite Nat.mod_small in Y by lia; lia|].
    replace (m + (b - a)) with (m + (b - a) - n + 1 * n) in Y by lia. rewrite Nat.mod_add in Y by lia. rewrite Nat.mod_small in Y by lia. lia. }
  rewrite Nat.mod_small in X; lia.
Qed.

Lemma ring_push s b v : ring s b -> length b < size s ->
  ring (St (size s) (S (elems s)) (if Nat.eqb (S (sendx s)) (size s) then 0 else S (sendx s)) (readx s) (send_waiting s) (read_waiting s) (closed s) (put (buf s) (sendx s) v) (mu s) (ths s) (log s)) (b ++ [v]).
Proof.
  intros (B1 & B2 & B3 & B4 & B5 & B6 & B7) L. unfold ring. cbn [size elems sendx readx buf]. rewrite put_length, app_length. cbn [length].
  assert (SX : sendx s < size s) by (rewrite B6; apply Nat.mod_upper_bound; lia).
  split; [exact B1|]. split; [lia|]. split; [lia|]. split; [exact B4|]. split; [exact B5|]. split.
  - rewrite next_mod by lia. rewrite B6. rewrite <- (mod_shift (readx s) (length b + 1) (size s)) by lia.
    change (S ((readx s + length b) mod size s)) with (1 + (readx s + length b) mod size s).
    rewrite Nat.add_mod_idemp_r by lia. rewrite mod_shift by lia. f_equal. lia.
  - intros k K. rewrite nth_put by lia. destruct (Nat.eqb_spec (sendx s) ((readx s + k) mod size s)) as [E|E].
    + assert (k = length b). { destruct (Nat.lt_ge_cases k (length b)) as [X|X]; [|lia]. exfalso. rewrite B6 in E. symmetry in E. revert E. apply mod_distinct. lia. }
      subst k. rewrite nth_error_app2, Nat.sub_diag by lia. reflexivity.
    + assert (k < length b). { destruct (Nat.eq_dec k (length b)) as [->|]; [|lia]. exfalso. apply E. exact B6. }
      rewrite nth_error_app1 by lia. apply B7. assumption.
Qed.
Lemma ring_pop s x b : ring s (x :: b) -> nth_error (buf s) (readx s) = Some x /\
  ring (St (size s) (pred (elems s)) (sendx s) (if Nat.eqb (S (readx s)) (size s) then 0 else S (readx s)) (send_waiting s) (read_waiting s) (closed s) (buf s) (mu s) (ths s) (log s)) b.
Proof.
  intros (B1 & B2 & B3 & B4 & B5 & B6 & B7). cbn [length] in *. assert (RX : readx s < size s) by (apply B5; lia). split.
  - specialize (B7 0 ltac:(lia)). rewrite Nat.add_0_r, Nat.mod_small in B7 by lia. exact B7.
  - unfold ring. cbn [size elems sendx readx buf]. rewrite next_mod by lia.
    split; [exact B1|]. split; [lia|]. split; [lia|]. split; [lia|]. split; [intros _; apply Nat.mod_upper_bound; lia|]. split.
    + rewrite mod_shift by lia. rewrite B6. f_equal. lia.
    + intros k K. rewrite mod_shift by lia. specialize (B7 (S k) ltac:(lia)). cbn [nth_error] in B7. rewrite <- B7. f_equal. f_equal. lia.
Qed.
Lemma ring_ext s s1 b : size s1 = size s -> elems s1 = elems s -> sendx s1 = sendx s -> readx s1 = readx s -> buf s1 = buf s -> ring s b -> ring s1 b.
Proof. unfold ring. intros -> -> -> -> ->. auto. Qed.

Lemma woke_act y x o : woke y x -> at_ x = Act o -> at_ y = Act o.
Proof. intros [->|[-> [o' A]]] E; [exact E|]. unfold wake in E. rewrite A in E. discriminate. Qed.

(** Only the thread itself can be past the loop after a step that changes the data: the others do not hold the mutex. *)
Lemma data_mv s i t s' : i_lock s -> i_data s -> nth_error (ths s) i = Some t -> mv s i t s' -> i_data s'.
Proof.
  intros IL [[b [LG RG]] [PU PO]] G M. pose proof (nth_len _ _ _ G) as L. destruct (mv_others s i t s' G M) as [_ OT].
  pose proof RG as (B1 & B2 & B3 & B4 & B5 & B6 & B7).
  assert (ALONE : holding (at_ t) = true -> forall k x o, nth_error (ths s) k = Some x -> at_ x = Act o -> k = i).
  { intros HT k x o Gk E. pose proof (proj1 IL i t G HT). pose proof (proj1 IL k x Gk ltac:(rewrite E; reflexivity)). congruence. }
  (* the data is as before: [u] says whether this thread can now be past the loop *)
  assert (SAME : forall s1, ths s1 = ths s' -> size s1 = size s -> elems s1 = elems s -> sendx s1 = sendx s -> readx s1 = readx s -> buf s1 = buf s -> closed s1 = closed s -> log s1 = log s ->
    (forall t' v, nth_error (ths s') i = Some t' -> at_ t' = Act (Push v) -> closed s = true \/ elems s <> size s) ->
    (forall t', nth_error (ths s') i = Some t' -> at_ t' = Act Pop -> closed s = true \/ elems s <> 0) -> i_data s1).
  { intros s1 E0 E1 E2 E3 E4 E5 E6 E7 SU SO. split; [|split].
    - exists b. rewrite E1, E6, E7. split; [exact LG|]. apply (ring_ext s); auto.
    - intros k x v Gk A. rewrite E0 in Gk. rewrite E1, E2, E6. destruct (Nat.eq_dec k i) as [->|N]; [apply (SU x v Gk A)|]. destruct (OT k x Gk N) as (y & Gy & W). apply (PU k y v Gy). eapply woke_act; eauto.
    - intros k x Gk A. rewrite E0 in Gk. rewrite E2, E6. destruct (Nat.eq_dec k i) as [->|N]; [apply (SO x Gk A)|]. destruct (OT k x Gk N) as (y & Gy & W). apply (PO k y Gy). eapply woke_act; eauto. }
  (* the data changes: nobody is past the loop afterwards *)
  assert (NONE : holding (at_ t) = true -> (forall t' o, nth_error (ths s') i = Some t' -> at_ t' <> Act o) ->
     forall k x o, nth_error (ths s') k = Some x -> at_ x = Act o -> False).
  { intros HT NT k x o Gk A. destruct (Nat.eq_dec k i) as [->|N]; [apply (NT x o Gk A)|]. destruct (OT k x Gk N) as (y & Gy & W). apply N. eapply ALONE; eauto. eapply woke_act; eauto. }
  destruct M;
  try (apply SAME; cbn [goto add_log set_ths set_mu set_waiting ths prog hist mu size elems sendx readx buf closed log]; try reflexivity;
       [intros t' v0 G' A|intros t' G' A];
       (rewrite nth_put_same in G' by (try erewrite wakes_len by eassumption; try rewrite map_length; exact L)); injection G' as <-; cbn [at_] in A; try discriminate; try tauto; fail).
  - (* push, closed *) assert (X : i_data (goto s i t (Release (Push v) RClosed))).
    { apply SAME; cbn [goto add_log set_ths ths]; try reflexivity; [intros t' v0 G' A|intros t' G' A]; rewrite nth_put_same in G' by exact L; injection G' as <-; discriminate. }
    destruct X as [[b' [LG' RG']] X']. split; [|exact X']. exists b'. split; [|exact RG']. cbn [add_log goto set_ths size log closed] in *. eapply legal_snoc; [exact LG'|]. cbn [queue_op]. rewrite H0. reflexivity.
  - (* push *) assert (LB : length b < size s) by (destruct (PU i t v G H); [congruence|lia]). split; [|split].
    + exists (b ++ [v]). cbn [add_log goto set_ths size log closed]. split; [eapply legal_snoc; [exact LG|]|].
      * cbn [queue_op]. rewrite H0. destruct (Nat.ltb_spec (length b) (size s)); [reflexivity|lia].
      * eapply ring_ext; [| | | | |apply (ring_push s b v RG LB)]; reflexivity.
    + intros k x w Gk A. exfalso. eapply NONE; try eassumption; [rewrite H; reflexivity|]. intros t' o' G'. cbn [goto add_log set_ths ths] in G'. rewrite nth_put_same in G' by exact L. injection G' as <-. discriminate.
    + intros k x Gk A. exfalso. eapply NONE; try eassumption; [rewrite H; reflexivity|]. intros t' o' G'. cbn [goto add_log set_ths ths] in G'. rewrite nth_put_same in G' by exact L. injection G' as <-. discriminate.
  - (* pop, closed *) assert (X : i_data (goto s i t (Release Pop RClosed))).
    { apply SAME; cbn [goto add_log set_ths ths]; try reflexivity; [intros t' v0 G' A|intros t' G' A]; rewrite nth_put_same in G' by exact L; injection G' as <-; discriminate. }
    destruct X as [_ X']. split; [|exact X']. exists b. cbn [add_log goto set_ths size log closed]. assert (b = []) as -> by (destruct b; [reflexivity|cbn [length] in B2; lia]).
    split; [|eapply ring_ext; [| | | | |exact RG]; reflexivity]. eapply legal_snoc; [exact LG|]. cbn [queue_op]. rewrite H0. reflexivity.
  - (* pop *) assert (X : exists x b', b = x :: b') by (destruct b as [|x b']; [|eauto]; exfalso; cbn in B2; destruct (PO i t G H); destruct H0; congruence).
    destruct X as (x & b' & ->). destruct (ring_pop s x b' RG) as [R1 R2]. rewrite R1 in H1. injection H1 as <-. split; [|split].
    + exists b'. cbn [add_log goto set_ths size log closed]. split; [eapply legal_snoc; [exact LG|reflexivity]|]. eapply ring_ext; [| | | | |exact R2]; reflexivity.
    + intros k y w Gk A. exfalso. eapply NONE; try eassumption; [rewrite H; reflexivity|]. intros t' o' G'. cbn [goto add_log set_ths ths] in G'. rewrite nth_put_same in G' by exact L. injection G' as <-. discriminate.
    + intros k y Gk A. exfalso. eapply NONE; try eassumption; [rewrite H; reflexivity|]. intros t' o' G'. cbn [goto add_log set_ths ths] in G'. rewrite nth_put_same in G' by exact L. injection G' as <-. discriminate.
  - (* close *) split; [|split].
    + exists b. cbn [add_log goto set_ths size log closed]. split; [eapply legal_snoc; [exact LG|reflexivity]|]. eapply ring_ext; [| | | | |exact RG]; reflexivity.
    + intros. left. reflexivity.
    + intros. left. reflexivity.
Qed.

(** Histories: every thread has done its program in order; the log has what it did. *)
Definition pend p : list (op V * res V) := match p with Signal o r | Release o r => [(o, r)] | _ => [] end.
Definition cur p : list (op V) := match p with AtLock o | Check o | Asleep o | Woken o | Act o => [o] | _ => [] end.
Definition i_hist (progs : list (list (op V))) s : Prop :=
  length (ths s) = length progs /\
  forall i t, nth_error (ths s) i = Some t -> of_thread i (log s) = hist t ++ pend (at_ t) /\ nth_error progs i = Some (map fst (hist t ++ pend (at_ t)) ++ cur (at_ t) ++ prog t).
Lemma woke_same y x : woke y x -> hist x = hist y /\ prog x = prog y /\ pend (at_ x) = pend (at_ y) /\ cur (at_ x) = cur (at_ y).
Proof. intros [->|[-> [o A]]]; [auto|]. unfold wake. rewrite A. cbn. auto. Qed.
Lemma of_thread_snoc i h j o r : of_thread i (h ++ [(j, o, r)]) = of_thread i h ++ (if Nat.eqb j i then [(o, r)] else []).
Proof. unfold of_thread. rewrite flat_map_app. cbn [flat_map fst snd]. rewrite app_nil_r. reflexivity. Qed.
(** What the step appends to the log. *)
Lemma mv_log s i t s' : nth_error (ths s) i = Some t -> mv s i t s' -> forall t', nth_error (ths s') i = Some t' ->
  exists e, log s' = log s ++ map (fun x => (i, fst x, snd x)) e /\ hist t' ++ pend (at_ t') = (hist t ++ pend (at_ t)) ++ e /\
  map fst e ++ cur (at_ t') ++ prog t' = cur (at_ t) ++ prog t.
Proof.
  intros G M t' G'. pose proof (nth_len _ _ _ G) as L.
  destruct M; cbn [goto add_log set_ths set_mu set_waiting ths prog hist mu log] in *;
    (rewrite nth_put_same in G' by (try erewrite wakes_len by eassumption; try rewrite map_length; exact L)); injection G' as <-; cbn [at_ hist prog]; rewrite H; cbn [pend cur];
  try (exists []; cbn [map]; rewrite ?app_nil_r; auto; fail).
  - exists [(Push v, RClosed)]. cbn [map fst snd app]. rewrite ?app_nil_r. auto.
  - exists [(Push v, ROk)]. cbn [map fst snd app]. rewrite ?app_nil_r. auto.
  - exists [(Pop, RClosed)]. cbn [map fst snd app]. rewrite ?app_nil_r. auto.
  - exists [(Pop, RVal v)]. cbn [map fst snd app]. rewrite ?app_nil_r. auto.
  - exists [(Close, ROk)]. cbn [map fst snd app]. rewrite ?app_nil_r. auto.
Qed.
Lemma of_thread_app i (h h' : list (nat * op V * res V)) : of_thread i (h ++ h') = of_thread i h ++ of_thread i h'.
Proof. unfold of_thread. apply flat_map_app. Qed.
Lemma of_thread_own i e : of_thread i (map (fun x : op V * res V => (i, fst x, snd x)) e) = e.
Proof. induction e as [|[o r] e IH]; [reflexivity|]. unfold of_thread in *. cbn [map flat_map fst snd]. rewrite Nat.eqb_refl, IH. reflexivity. Qed.
Lemma of_thread_other i j e : j <> i -> of_thread i (map (fun x : op V * res V => (j, fst x, snd x)) e) = [].
Proof. intros N. induction e as [|[o r] e IH]; [reflexivity|]. unfold of_thread in *. cbn [map flat_map fst snd]. destruct (Nat.eqb_spec j i); [congruence|exact IH]. Qed.
Lemma hist_mv progs s i t s' : i_hist progs s -> nth_error (ths s) i = Some t -> mv s i t s' -> i_hist progs s'.
Proof.
  intros [LP HI] G M. destruct (mv_others s i t s' G M) as [EL OT]. destruct (mv_self s i t s' G M) as [t' G'].
  destruct (mv_log s i t s' G M t' G') as (e & E1 & E2 & E3). split; [congruence|]. intros k x Gk. rewrite E1, of_thread_app.
  destruct (Nat.eq_dec k i) as [->|N].
  - rewrite G' in Gk. injection Gk as <-. destruct (HI i t G) as [H1 H2]. rewrite of_thread_own, H1, E2. split; [reflexivity|]. rewrite H2. f_equal.
    rewrite (map_app fst (hist t ++ pend (at_ t)) e), <- app_assoc, E3. reflexivity.
  - rewrite of_thread_other, app_nil_r by congruence. destruct (OT k x Gk N) as (y & Gy & W). destruct (woke_same y x W) as (-> & -> & -> & ->). apply HI, Gy.
Qed.
End P.
