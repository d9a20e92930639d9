(** Proofs about the buffered channel: no wake-up is lost, progress, termination. *)
From Coq Require Import List Arith Bool Lia.
From Verif Require Import ChanModel ChanSpec ChanProofs.
Import ListNotations.

Section P.
Context {V : Type}.
Implicit Types (s : st V) (t : thread V) (o : op V) (p : pc V).

Fixpoint cnt (f : pc V -> nat) (l : list (thread V)) : nat := match l with [] => 0 | t :: r => f (at_ t) + cnt f r end.
Lemma cnt_put f l : forall i t t', nth_error l i = Some t -> cnt f (put l i t') + f (at_ t) = cnt f l + f (at_ t').
Proof.
  induction l as [|x l IH]; intros [|i] t t' G; cbn [nth_error] in G; try discriminate; cbn [put cnt].
  - injection G as ->. lia.
  - specialize (IH i t t' G). lia.
Qed.
Lemma cnt_ge f l i t : nth_error l i = Some t -> f (at_ t) <= cnt f l.
Proof. revert i. induction l as [|x l IH]; intros [|i] G; cbn [nth_error] in G; try discriminate; cbn [cnt]; [injection G as ->; lia|]. specialize (IH i G). lia. Qed.
Lemma cnt_zero f l : (forall t, In t l -> f (at_ t) = 0) -> cnt f l = 0.
Proof. induction l as [|x l IH]; intros H; cbn [cnt]; [reflexivity|]. rewrite H by (left; reflexivity). apply IH. intros t T. apply H. right. exact T. Qed.

Definition aslp_s p := match p with Asleep (Push _) => 1 | _ => 0 end.
Definition aslp_r p := match p with Asleep Pop => 1 | _ => 0 end.
Definition wok_s p := match p with Woken (Push _) => 1 | _ => 0 end.
Definition wok_r p := match p with Woken Pop => 1 | _ => 0 end.
(** Threads that will use a free place, or are about to wake one that will; threads that will take a value, or are about to wake one that will. *)
Definition cred_s p := match p with Woken (Push _) | Check (Push _) | Act (Push _) | Signal Pop _ => 1 | _ => 0 end.
Definition cred_r p := match p with Woken Pop | Check Pop | Act Pop | Signal (Push _) _ => 1 | _ => 0 end.
Definition sigc p := match p with Signal Close _ => 1 | _ => 0 end.
Definition sane p : bool := match p with Check Close | Asleep Close | Woken Close => false | _ => true end.

Record i_cnt s : Prop := IC {
  c_sane : forall i t, nth_error (ths s) i = Some t -> sane (at_ t) = true;
  c_send : send_waiting s = cnt aslp_s (ths s) + cnt wok_s (ths s);
  c_read : read_waiting s = cnt aslp_r (ths s) + cnt wok_r (ths s);
  c_full : closed s = false -> cnt aslp_s (ths s) = 0 \/ size s <= elems s + cnt cred_s (ths s);
  c_empty : closed s = false -> cnt aslp_r (ths s) = 0 \/ elems s <= cnt cred_r (ths s);
  c_closed : closed s = true -> cnt aslp_s (ths s) + cnt aslp_r (ths s) = 0 \/ 0 < cnt sigc (ths s) }.

Lemma existsb_nth (sl : thread V -> bool) l i t : existsb sl l = false -> nth_error l i = Some t -> sl t = false.
Proof. intros E G. destruct (sl t) eqn:B; [|reflexivity]. exfalso. assert (existsb sl l = true) by (apply existsb_exists; exists t; split; [eapply nth_error_In; eauto|exact B]). congruence. Qed.
Lemma none_cnt f (sl : thread V -> bool) l : (forall t, f (at_ t) = if sl t then 1 else 0) -> existsb sl l = false -> cnt f l = 0.
Proof.
  intros F E. apply cnt_zero. intros t T. rewrite F. destruct (sl t) eqn:B; [|reflexivity]. exfalso. assert (existsb sl l = true) by (apply existsb_exists; eauto). congruence.
Qed.
Lemma ss_cnt t : aslp_s (at_ t) = if sleeps_send t then 1 else 0.
Proof. unfold sleeps_send. destruct (at_ t) as [| | |[]| | | |]; reflexivity. Qed.
Lemma sr_cnt t : aslp_r (at_ t) = if sleeps_read t then 1 else 0.
Proof. unfold sleeps_read. destruct (at_ t) as [| | |[]| | | |]; reflexivity. Qed.

Lemma wake_all_cnt f g l : (forall t, f (at_ (wake t)) = f (at_ t) + g (at_ t)) -> cnt f (map wake l) = cnt f l + cnt g l.
Proof. intros H. induction l as [|t l IH]; cbn [map cnt]; [reflexivity|]. rewrite H. lia. Qed.
Lemma wake_all_cnt0 f l : (forall t, f (at_ (wake t)) = 0) -> cnt f (map wake l) = 0.
Proof. intros H. induction l as [|t l IH]; cbn [map cnt]; [reflexivity|]. rewrite H, IH. reflexivity. Qed.

Ltac eqs l i t t' G :=
  pose proof (cnt_put aslp_s l i t t' G); pose proof (cnt_put aslp_r l i t t' G); pose proof (cnt_put wok_s l i t t' G); pose proof (cnt_put wok_r l i t t' G);
  pose proof (cnt_put cred_s l i t t' G); pose proof (cnt_put cred_r l i t t' G); pose proof (cnt_put sigc l i t t' G).

Lemma woke_sane y x : woke y x -> sane (at_ y) = true -> sane (at_ x) = true.
Proof. intros [->|[-> [o A]]] E; [exact E|]. unfold wake. rewrite A in *. exact E. Qed.

Lemma sane_mv s i t s' : (forall i t, nth_error (ths s) i = Some t -> sane (at_ t) = true) -> nth_error (ths s) i = Some t -> mv s i t s' ->
  forall k x, nth_error (ths s') k = Some x -> sane (at_ x) = true.
Proof.
  intros SA G M k x Gk. destruct (mv_others s i t s' G M) as [_ OT]. pose proof (nth_len _ _ _ G) as L. destruct (Nat.eq_dec k i) as [->|N].
  - pose proof (SA i t G) as ST. destruct M; cbn [goto add_log set_ths set_mu set_waiting ths prog hist mu] in *;
    (rewrite nth_put_same in Gk by (try erewrite wakes_len by eassumption; try rewrite map_length; exact L)); injection Gk as <-; cbn [at_]; try reflexivity.
    + destruct o; [reflexivity|reflexivity|congruence].
    + rewrite H in ST. exact ST.
  - destruct (OT k x Gk N) as (y & Gy & W). eapply woke_sane; eauto.
Qed.

(** The counts after waking one thread. *)
Lemma wakes_cnt l l' sl i t : wakes l l' sl -> nth_error l i = Some t -> (forall o, at_ t <> Asleep o) -> (forall x, sl x = true -> exists o, at_ x = Asleep o) -> nth_error l' i = Some t.
Proof.
  intros [j x Gj E ->|_ ->] G N S; [|exact G]. rewrite nth_put by (eapply nth_len; eauto). destruct (Nat.eqb_spec j i) as [->|]; [|exact G].
  rewrite Gj in G. injection G as ->. destruct (S t E) as [o A]. exfalso. apply (N o A).
Qed.

Lemma cnt_mv s i t s' : i_cnt s -> nth_error (ths s) i = Some t -> mv s i t s' -> i_cnt s'.
Proof.
  intros [SA CS CR CF CE CC] G M. pose proof (sane_mv s i t s' SA G M) as SA'.
  destruct M.
  all: cbn [goto add_log set_ths set_mu set_waiting ths prog hist] in SA'.
  Local Ltac one l i t t' G H := eqs l i t t' G; cbn [at_] in *; rewrite H in *; cbn [aslp_s aslp_r wok_s wok_r cred_s cred_r sigc] in *.
  Local Ltac fin := constructor; cbn [goto add_log set_ths set_mu set_waiting ths size elems send_waiting read_waiting closed prog hist]; try assumption; try lia;
     try (let CL := fresh in intros CL; try congruence; repeat match goal with X : ?P -> _, Y : ?P |- _ => specialize (X Y) end; lia).
  - one (ths s) i t (Th r (AtLock o) (hist t)) G H. fin.
  - one (ths s) i t (Th (prog t) (Check o) (hist t)) G H. destruct o; [| |congruence]; fin.
  - one (ths s) i t (Th (prog t) (Act Close) (hist t)) G H. fin.
  - one (ths s) i t (Th (prog t) (Asleep (Push v)) (hist t)) G H. fin.
  - one (ths s) i t (Th (prog t) (Act (Push v)) (hist t)) G H. fin.
  - one (ths s) i t (Th (prog t) (Asleep Pop) (hist t)) G H. fin.
  - one (ths s) i t (Th (prog t) (Act Pop) (hist t)) G H. fin.
  - one (ths s) i t (Th (prog t) (Check (Push v)) (hist t)) G H. fin.
  - one (ths s) i t (Th (prog t) (Check o) (hist t)) G H. pose proof (SA i t G) as ST. rewrite H in ST. destruct o; [congruence| |discriminate]; fin.
  - one (ths s) i t (Th (prog t) (Release (Push v) RClosed) (hist t)) G H. fin.
  - one (ths s) i t (Th (prog t) (Signal (Push v) ROk) (hist t)) G H. fin.
  - one (ths s) i t (Th (prog t) (Release Pop RClosed) (hist t)) G H. fin.
  - one (ths s) i t (Th (prog t) (Signal Pop (RVal v)) (hist t)) G H. fin.
  - one (ths s) i t (Th (prog t) (Signal Close ROk) (hist t)) G H. fin.
  - assert (Gl : nth_error l i = Some t) by (apply (wakes_cnt (ths s) l sleeps_read); auto using sr_asleep; intros; congruence).
    one l i t (Th (prog t) (Release (Push v) r) (hist t)) Gl H. destruct H1 as [j x Gj E ->|E ->].
    + eqs (ths s) j x (wake x) Gj. unfold sleeps_read in E. unfold wake in *. destruct (at_ x) as [| | |[]| | | |] eqn:A; try discriminate.
      cbn [at_] in *. cbn [aslp_s aslp_r wok_s wok_r cred_s cred_r sigc] in *. fin.
    + pose proof (none_cnt aslp_r sleeps_read (ths s) sr_cnt E). fin.
  - one (ths s) i t (Th (prog t) (Release (Push v) r) (hist t)) G H. fin.
  - assert (Gl : nth_error l i = Some t) by (apply (wakes_cnt (ths s) l sleeps_send); auto using ss_asleep; intros; congruence).
    one l i t (Th (prog t) (Release Pop r) (hist t)) Gl H. destruct H1 as [j x Gj E ->|E ->].
    + eqs (ths s) j x (wake x) Gj. unfold sleeps_send in E. unfold wake in *. destruct (at_ x) as [| | |[]| | | |] eqn:A; try discriminate.
      cbn [at_] in *. cbn [aslp_s aslp_r wok_s wok_r cred_s cred_r sigc] in *. fin.
    + pose proof (none_cnt aslp_s sleeps_send (ths s) ss_cnt E). fin.
  - one (ths s) i t (Th (prog t) (Release Pop r) (hist t)) G H. fin.
  - assert (WT : wake t = t) by (unfold wake; rewrite H; reflexivity).
    assert (Gl : nth_error (map wake (ths s)) i = Some t) by (rewrite nth_error_map, G; cbn; rewrite WT; reflexivity).
    one (map wake (ths s)) i t (Th (prog t) (Release Close r) (hist t)) Gl H.
    assert (X1 : cnt aslp_s (map wake (ths s)) = 0) by (apply wake_all_cnt0; intros x; unfold wake; destruct (at_ x) as [| | |[]| | | |] eqn:A; cbn [at_]; rewrite ?A; reflexivity).
    assert (X2 : cnt aslp_r (map wake (ths s)) = 0) by (apply wake_all_cnt0; intros x; unfold wake; destruct (at_ x) as [| | |[]| | | |] eqn:A; cbn [at_]; rewrite ?A; reflexivity).
    assert (X3 : cnt wok_s (map wake (ths s)) = cnt wok_s (ths s) + cnt aslp_s (ths s)) by (apply wake_all_cnt; intros x; unfold wake; destruct (at_ x) as [| | |[]|[]| | |] eqn:A; cbn [at_]; rewrite ?A; reflexivity).
    assert (X4 : cnt wok_r (map wake (ths s)) = cnt wok_r (ths s) + cnt aslp_r (ths s)) by (apply wake_all_cnt; intros x; unfold wake; destruct (at_ x) as [| | |[]|[]| | |] eqn:A; cbn [at_]; rewrite ?A; reflexivity).
    fin.
  - one (ths s) i t (Th (prog t) Idle (hist t ++ [(o, r)])) G H. fin.
Qed.

(** All of it. *)
Definition inv progs s : Prop := i_lock s /\ i_data s /\ i_hist progs s /\ i_cnt s.

Lemma spurious_inv progs s i t : inv progs s -> nth_error (ths s) i = Some t -> (exists o, at_ t = Asleep o) -> inv progs (set_ths s (put (ths s) i (wake t))).
Proof.
  intros (I1 & I2 & I3 & I4) G [o A]. pose proof (nth_len _ _ _ G) as L. set (s' := set_ths s (put (ths s) i (wake t))).
  assert (OT : forall k x, nth_error (ths s') k = Some x -> exists y, nth_error (ths s) k = Some y /\ woke y x).
  { intros k x Gk. cbn [s' set_ths ths] in Gk. rewrite nth_put in Gk by exact L. destruct (Nat.eqb_spec i k) as [<-|]; [|exists x; split; [exact Gk|left; reflexivity]].
    injection Gk as <-. exists t. split; [exact G|]. right. split; [reflexivity|eauto]. }
  split; [|split; [|split]].
  - destruct I1 as [J1 J2]. split.
    + intros k x Gk Hx. destruct (OT k x Gk) as (y & Gy & W). rewrite (woke_holding y x W) in Hx. apply (J1 k y Gy Hx).
    + intros k MK. destruct (J2 k MK) as (y & Gy & Hy). exists y. split; [|exact Hy]. cbn [s' set_ths ths]. rewrite nth_put by exact L. destruct (Nat.eqb_spec i k) as [<-|]; [|exact Gy].
      rewrite G in Gy. injection Gy as ->. rewrite A in Hy. discriminate.
  - destruct I2 as [[b [J1 J2]] [J3 J4]]. split; [|split].
    + exists b. split; [exact J1|]. eapply ring_ext; [| | | | |exact J2]; reflexivity.
    + intros k x v Gk E. destruct (OT k x Gk) as (y & Gy & W). apply (J3 k y v Gy). eapply woke_act; eauto.
    + intros k x Gk E. destruct (OT k x Gk) as (y & Gy & W). apply (J4 k y Gy). eapply woke_act; eauto.
  - destruct I3 as [J1 J2]. split; [cbn [s' set_ths ths]; rewrite put_length; exact J1|]. intros k x Gk. destruct (OT k x Gk) as (y & Gy & W).
    destruct (woke_same y x W) as (-> & -> & -> & ->). apply J2, Gy.
  - destruct I4 as [SA CS CR CF CE CC].
    assert (SA' : forall k x, nth_error (ths s') k = Some x -> sane (at_ x) = true) by (intros k x Gk; destruct (OT k x Gk) as (y & Gy & W); eapply woke_sane; eauto).
    pose proof (SA i t G) as ST. eqs (ths s) i t (wake t) G. unfold s' in *. unfold wake in *. rewrite A in *. cbn [at_] in *. destruct o; [| |discriminate]; cbn [aslp_s aslp_r wok_s wok_r cred_s cred_r sigc] in *; fin.
Qed.

Lemma inv_init buf0 progs : inv progs (init buf0 progs).
Proof.
  assert (N : forall i t, nth_error (ths (init buf0 progs)) i = Some t -> exists (p : list (op V)), nth_error progs i = Some p /\ t = Th p Idle []).
  { intros i t G. cbn [init ths] in G. rewrite nth_error_map in G. destruct (nth_error progs i) as [p|] eqn:E; [|discriminate]. injection G as <-. eauto. }
  assert (Z : forall f, f Idle = 0 -> cnt f (ths (init buf0 progs)) = 0).
  { intros f F. apply cnt_zero. intros t T. cbn [init ths] in T. apply in_map_iff in T. destruct T as (p & <- & _). exact F. }
  split; [|split; [|split]].
  - split; [|intros i H; discriminate]. intros i t G Hh. destruct (N i t G) as (p & _ & ->). discriminate.
  - split; [|split].
    + exists []. split; [constructor|]. unfold ring. cbn [init buf size elems readx sendx length].
      split; [reflexivity|]. split; [reflexivity|]. split; [lia|]. split; [reflexivity|]. split; [auto|]. split; [|intros k K; lia].
      destruct (length buf0) as [|k]; [reflexivity|]. symmetry. apply Nat.mod_0_l. lia.
    + intros i t v G A. destruct (N i t G) as (p & _ & ->). discriminate.
    + intros i t G A. destruct (N i t G) as (p & _ & ->). discriminate.
  - split; [cbn [init ths]; apply map_length|]. intros i t G. destruct (N i t G) as (p & E & ->). cbn. auto.
  - constructor; try (rewrite !Z by reflexivity; cbn; auto; fail).
    + intros i t G. destruct (N i t G) as (p & E & ->). reflexivity.
Qed.

Lemma inv_step progs s c s' : inv progs s -> step s c = Some s' -> inv progs s'.
Proof.
  intros I E. destruct c as [i j|i]; cbn [step] in E.
  - destruct (move_mv s i j s' E) as (t & G & M). destruct I as (I1 & I2 & I3 & I4).
    split; [eapply lock_mv; eauto|]. split; [eapply data_mv; eauto|]. split; [eapply hist_mv; eauto|eapply cnt_mv; eauto].
  - destruct (nth_error (ths s) i) as [t|] eqn:G; [|discriminate]. destruct (at_ t) eqn:A; try discriminate. injection E as <-. apply spurious_inv; eauto.
Qed.
Lemma inv_run progs : forall sched s s', inv progs s -> run s sched = Some s' -> inv progs s'.
Proof.
  induction sched as [|c sched IH]; intros s s' I E; cbn [run] in E; [injection E as <-; exact I|].
  destruct (step s c) as [s1|] eqn:Q; [|discriminate]. eapply IH; [|exact E]. eapply inv_step; eassumption.
Qed.

Lemma log_step s c s' : step s c = Some s' -> exists e, log s' = log s ++ e.
Proof.
  intros E. destruct c as [i j|i]; cbn [step] in E.
  - destruct (move_mv s i j s' E) as (t & G & M). destruct (mv_self s i t s' G M) as [t' G']. destruct (mv_log s i t s' G M t' G') as (e & L & _). eauto.
  - destruct (nth_error (ths s) i) as [t|]; [|discriminate]. destruct (at_ t); try discriminate. injection E as <-. exists []. rewrite app_nil_r. reflexivity.
Qed.
Lemma log_run : forall sched s s', run s sched = Some s' -> exists e, log s' = log s ++ e.
Proof.
  induction sched as [|c sched IH]; intros s s' E; cbn [run] in E; [injection E as <-; exists []; rewrite app_nil_r; reflexivity|].
  destruct (step s c) as [s1|] eqn:Q; [|discriminate]. destruct (log_step _ _ _ Q) as [e1 E1]. destruct (IH s1 s' E) as [e2 E2]. exists (e1 ++ e2). rewrite E2, E1, app_assoc. reflexivity.
Qed.

Lemma size_step s c s' : step s c = Some s' -> size s' = size s.
Proof.
  intros E. destruct c as [i j|i]; cbn [step] in E.
  - destruct (move_mv s i j s' E) as (t & G & M). destruct M; reflexivity.
  - destruct (nth_error (ths s) i) as [t|]; [|discriminate]. destruct (at_ t); try discriminate. injection E as <-. reflexivity.
Qed.
Lemma size_run : forall sched s s', run s sched = Some s' -> size s' = size s.
Proof.
  induction sched as [|c sched IH]; intros s s' E; cbn [run] in E; [injection E as <-; reflexivity|].
  destruct (step s c) as [s1|] eqn:Q; [|discriminate]. rewrite (IH s1 s' E). eapply size_step; eauto.
Qed.

(** Progress. *)
Lemma signal_moves sl s : exists j s1, signal sl s j = Some s1.
Proof.
  destruct (existsb sl (ths s)) eqn:B.
  - apply existsb_exists in B. destruct B as (t & T & S). apply In_nth_error in T. destruct T as [j G]. exists j. unfold signal. rewrite G, S. eauto.
  - exists 0. unfold signal. rewrite B. destruct (nth_error (ths s) 0) as [t|] eqn:G; [|eauto]. rewrite (existsb_nth sl _ _ _ B G). eauto.
Qed.
Lemma holder_moves progs s i t : inv progs s -> nth_error (ths s) i = Some t -> holding (at_ t) = true -> exists j s', move s i j = Some s'.
Proof.
  intros (I1 & I2 & I3 & I4) G H. unfold move. rewrite G. destruct I2 as [[b [LG RG]] [PU PO]]. destruct RG as (B1 & B2 & B3 & B4 & B5 & B6 & B7).
  destruct (at_ t) as [|o|o|o|o|o|o r|o r] eqn:A; try discriminate.
  - destruct o as [v| |].
    + exists 0. destruct (_ && _); eauto.
    + exists 0. destruct (_ && _); eauto.
    + pose proof (c_sane _ I4 i t G) as X. rewrite A in X. discriminate.
  - destruct o as [v| |].
    + exists 0. unfold act_push. destruct (closed s) eqn:C; [eauto|]. destruct (PU i t v G A) as [X|X]; [congruence|].
      assert (sendx s < length (buf s)) by (rewrite B1, B6; apply Nat.mod_upper_bound; lia). destruct (Nat.ltb_spec (sendx s) (length (buf s))); [eauto|lia].
    + exists 0. unfold act_pop. destruct (closed s && Nat.eqb (elems s) 0) eqn:C; [eauto|]. destruct (nth_error (buf s) (readx s)) eqn:N; [eauto|]. exfalso.
      apply nth_error_None in N. assert (elems s <> 0). { destruct (PO i t G A) as [X|X]; [|exact X]. rewrite X in C. cbn in C. apply Nat.eqb_neq. exact C. }
      assert (readx s < size s) by (apply B5; lia). lia.
    + exists 0. unfold act_close. eauto.
  - destruct o as [v| |].
    + destruct (Nat.ltb 0 (read_waiting s)); [|exists 0; eauto]. destruct (signal_moves sleeps_read s) as (j & s1 & E). exists j. rewrite E. eauto.
    + destruct (Nat.ltb 0 (send_waiting s)); [|exists 0; eauto]. destruct (signal_moves sleeps_send s) as (j & s1 & E). exists j. rewrite E. eauto.
    + exists 0. eauto.
  - exists 0. eauto.
Qed.

Definition resting t : bool := match at_ t with Idle => match prog t with [] => true | _ => false end | Asleep _ => true | _ => false end.
Lemma progress progs s : inv progs s ->
  (exists i j s', move s i j = Some s') \/
  (forall i t, nth_error (ths s) i = Some t -> finished t \/ sending t \/ receiving t) /\
  (forall i t, nth_error (ths s) i = Some t -> sending t -> closed s = false /\ elems s = size s) /\
  (forall i t, nth_error (ths s) i = Some t -> receiving t -> closed s = false /\ elems s = 0).
Proof.
  intros I. destruct (mu s) as [i|] eqn:M.
  - left. destruct (proj2 (proj1 I) i M) as (t & G & H). destruct (holder_moves progs s i t I G H) as (j & s' & E). eauto.
  - destruct (forallb resting (ths s)) eqn:B.
    + right. rewrite forallb_forall in B. pose proof I as (I1 & I2 & I3 & [SA CS CR CF CE CC]).
      assert (R : forall i t, nth_error (ths s) i = Some t -> finished t \/ sending t \/ receiving t).
      { intros i t G. specialize (B t (nth_error_In _ _ G)). specialize (SA i t G). unfold resting in B. unfold finished, sending, receiving. destruct (at_ t) as [|o|o|o|o|o|o r|o r]; try discriminate.
        - destruct (prog t); [auto|discriminate].
        - destruct o; [right; left; eauto|auto|discriminate]. }
      assert (Z : forall f, f Idle = 0 -> (forall o, f (Asleep o) = 0) -> cnt f (ths s) = 0).
      { intros f F1 F2. apply cnt_zero. intros t T. specialize (B t T). unfold resting in B. destruct (at_ t); try discriminate; auto. }
      destruct I2 as [[b [LG RG]] _]. destruct RG as (B1 & B2 & B3 & _). split; [exact R|]. split.
      * intros i t G [v S]. pose proof (cnt_ge aslp_s (ths s) i t G) as X. rewrite S in X. cbn [aslp_s] in X. destruct (closed s) eqn:C.
        -- destruct (CC eq_refl) as [Y|Y]; [lia|]. rewrite (Z sigc) in Y by reflexivity. lia.
        -- split; [reflexivity|]. destruct (CF eq_refl) as [Y|Y]; [lia|]. rewrite (Z cred_s) in Y by reflexivity. lia.
      * intros i t G S. pose proof (cnt_ge aslp_r (ths s) i t G) as X. unfold receiving in S. rewrite S in X. cbn [aslp_r] in X. destruct (closed s) eqn:C.
        -- destruct (CC eq_refl) as [Y|Y]; [lia|]. rewrite (Z sigc) in Y by reflexivity. lia.
        -- split; [reflexivity|]. destruct (CE eq_refl) as [Y|Y]; [lia|]. rewrite (Z cred_r) in Y by reflexivity. lia.
    + left. assert (X : exists i t, nth_error (ths s) i = Some t /\ resting t = false).
      { clear - B. induction (ths s) as [|p l IH]; [discriminate|]. cbn in B. destruct (resting p) eqn:E; [|exists 0, p; auto]. destruct (IH B) as (i & x & X). exists (S i), x. exact X. }
      destruct X as (i & t & G & R). unfold resting in R.
      destruct (holding (at_ t)) eqn:Hh; [destruct (holder_moves progs s i t I G Hh) as (j & s' & E); eauto|].
      exists i, 0. unfold move. rewrite G, M. destruct (at_ t); try discriminate; eauto. destruct (prog t); [discriminate|eauto].
Qed.

(** Every step but a spurious wake-up uses up some of a finite amount of work. *)
Definition weight n p := match p with
  | Idle => 0 | Release _ _ => 1 | Signal _ _ => 2 * n + 2 | Act _ => 2 * n + 3 | Asleep _ => 2 * n + 3 | Check _ => 2 * n + 4 | Woken _ => 2 * n + 5 | AtLock _ => 2 * n + 6 end.
Fixpoint left_ (l : list (thread V)) : nat := match l with [] => 0 | t :: r => length (prog t) + left_ r end.
Definition work n s := cnt (weight n) (ths s) + (2 * n + 7) * left_ (ths s).
Lemma left_put l : forall i t t', nth_error l i = Some t -> left_ (put l i t') + length (prog t) = left_ l + length (prog t').
Proof.
  induction l as [|x l IH]; intros [|i] t t' G; cbn [nth_error] in G; try discriminate; cbn [put left_].
  - injection G as ->. lia.
  - specialize (IH i t t' G). lia.
Qed.
Lemma wake_prog t : prog (wake t) = prog t.
Proof. unfold wake. destruct (at_ t); reflexivity. Qed.
Lemma wake_weight n t : weight n (at_ (wake t)) <= weight n (at_ t) + 2.
Proof. unfold wake. destruct (at_ t) eqn:A; cbn [at_]; rewrite ?A; cbn [weight]; lia. Qed.
Lemma wake_all_work n l : cnt (weight n) (map wake l) <= cnt (weight n) l + 2 * length l /\ left_ (map wake l) = left_ l.
Proof. induction l as [|t l [IH1 IH2]]; cbn [map cnt left_ length]; [lia|]. rewrite wake_prog. pose proof (wake_weight n t). lia. Qed.
Lemma wakes_work n l l' sl : wakes l l' sl -> cnt (weight n) l' <= cnt (weight n) l + 2 /\ left_ l' = left_ l.
Proof.
  intros [j t G _ ->|_ ->]; [|lia]. pose proof (cnt_put (weight n) l j t (wake t) G). pose proof (left_put l j t (wake t) G) as X. rewrite wake_prog in X. pose proof (wake_weight n t). lia.
Qed.
Lemma work_mv s i t s' : nth_error (ths s) i = Some t -> mv s i t s' -> work (length (ths s)) s' < work (length (ths s)) s.
Proof.
  intros G M. unfold work. set (n := length (ths s)). pose proof (nth_len _ _ _ G) as L. fold n in L.
  Local Ltac own n l i t t' G H := pose proof (cnt_put (weight n) l i t t' G); pose proof (left_put l i t t' G); cbn [at_ prog] in *; rewrite H in *; cbn [weight] in *; cbn [goto add_log set_ths set_mu set_waiting ths prog hist] in *.
  destruct M.
  1: own n (ths s) i t (Th r (AtLock o) (hist t)) G H; rewrite H0 in *; cbn [length] in *; nia.
  1: own n (ths s) i t (Th (prog t) (Check o) (hist t)) G H; nia.
  1: own n (ths s) i t (Th (prog t) (Act Close) (hist t)) G H; nia.
  1: own n (ths s) i t (Th (prog t) (Asleep (Push v)) (hist t)) G H; nia.
  1: own n (ths s) i t (Th (prog t) (Act (Push v)) (hist t)) G H; nia.
  1: own n (ths s) i t (Th (prog t) (Asleep Pop) (hist t)) G H; nia.
  1: own n (ths s) i t (Th (prog t) (Act Pop) (hist t)) G H; nia.
  1: own n (ths s) i t (Th (prog t) (Check (Push v)) (hist t)) G H; nia.
  1: own n (ths s) i t (Th (prog t) (Check o) (hist t)) G H; nia.
  1: own n (ths s) i t (Th (prog t) (Release (Push v) RClosed) (hist t)) G H; nia.
  1: own n (ths s) i t (Th (prog t) (Signal (Push v) ROk) (hist t)) G H; nia.
  1: own n (ths s) i t (Th (prog t) (Release Pop RClosed) (hist t)) G H; nia.
  1: own n (ths s) i t (Th (prog t) (Signal Pop (RVal v)) (hist t)) G H; nia.
  1: own n (ths s) i t (Th (prog t) (Signal Close ROk) (hist t)) G H; nia.
  - assert (Gl : nth_error l i = Some t) by (apply (wakes_cnt (ths s) l sleeps_read); auto using sr_asleep; intros; congruence).
    destruct (wakes_work n _ _ _ H1). own n l i t (Th (prog t) (Release (Push v) r) (hist t)) Gl H. nia.
  - own n (ths s) i t (Th (prog t) (Release (Push v) r) (hist t)) G H; nia.
  - assert (Gl : nth_error l i = Some t) by (apply (wakes_cnt (ths s) l sleeps_send); auto using ss_asleep; intros; congruence).
    destruct (wakes_work n _ _ _ H1). own n l i t (Th (prog t) (Release Pop r) (hist t)) Gl H. nia.
  - own n (ths s) i t (Th (prog t) (Release Pop r) (hist t)) G H; nia.
  - assert (WT : wake t = t) by (unfold wake; rewrite H; reflexivity).
    assert (Gl : nth_error (map wake (ths s)) i = Some t) by (rewrite nth_error_map, G; cbn; rewrite WT; reflexivity).
    destruct (wake_all_work n (ths s)). fold n in H0. own n (map wake (ths s)) i t (Th (prog t) (Release Close r) (hist t)) Gl H. nia.
  - own n (ths s) i t (Th (prog t) Idle (hist t ++ [(o, r)])) G H. nia.
Qed.
Lemma run_bound : forall sched s s', run s sched = Some s' -> length sched + work (length (ths s)) s' <= work (length (ths s)) s + 3 * spurious sched.
Proof.
  induction sched as [|c sched IH]; intros s s' E; cbn [run] in E; [injection E as <-; cbn; lia|].
  destruct (step s c) as [s1|] eqn:Q; [|discriminate]. specialize (IH s1 s' E). destruct c as [i j|i]; cbn [step] in Q.
  - destruct (move_mv s i j s1 Q) as (t & G & M). pose proof (work_mv s i t s1 G M). destruct (mv_others s i t s1 G M) as [EL _]. rewrite EL in IH.
    unfold spurious in *. cbn [filter length]. lia.
  - destruct (nth_error (ths s) i) as [t|] eqn:G; [|discriminate]. destruct (at_ t) eqn:A; try discriminate. injection Q as <-. cbn [set_ths ths] in IH. rewrite put_length in IH.
    unfold spurious in *. cbn [filter length]. set (n := length (ths s)) in *. unfold work in *. cbn [set_ths ths] in *.
    pose proof (cnt_put (weight n) (ths s) i t (wake t) G). pose proof (left_put (ths s) i t (wake t) G) as X. rewrite wake_prog in X. pose proof (wake_weight n t). nia.
Qed.
Lemma work_init buf0 progs n : work n (init buf0 progs) = (2 * n + 7) * list_sum (map (@length (op V)) progs).
Proof.
  unfold work. cbn [init ths]. induction progs as [|p progs IH]; [cbn; lia|]. cbn [map cnt left_ at_ weight prog list_sum fold_right] in *. fold (list_sum (map (@length (op V)) progs)). lia.
Qed.

(** Histories of a queue. *)
Lemma legal_fifo size : forall h (b : list V) c, legal size h b c -> pushed h = popped h ++ b /\ length b <= size /\ (c = true <-> exists i, In (i, Close, ROk) h).
Proof.
  intros h b c L. induction L as [|h b c i o r b' c' L (IH1 & IH2 & IH3) Q]; [cbn; split; [reflexivity|split; [lia|]]; split; [discriminate|intros [i []]]|].
  assert (IN : forall e, (exists j, In (j, Close, ROk) (h ++ [e])) <-> (exists j, In (j, Close, ROk) h) \/ (exists j, e = (j, Close, ROk))).
  { intros e. split; [intros [j J]; apply in_app_iff in J; destruct J as [J|[J|[]]]; eauto|intros [[j J]|[j ->]]; exists j; apply in_app_iff; cbn; auto]. }
  unfold pushed, popped in *. rewrite !flat_map_app. cbn [flat_map]. rewrite !app_nil_r, IN, <- IH3. destruct o as [v| |]; cbn [queue_op] in Q.
  - destruct c; [injection Q as <- <- <-|].
    + rewrite !app_nil_r. split; [exact IH1|]. split; [exact IH2|]. split; [auto|]. intros _. reflexivity.
    + destruct (Nat.ltb_spec (length b) size) as [X|X]; [|discriminate]. injection Q as <- <- <-. rewrite IH1, app_nil_r, app_assoc, app_length. cbn [length]. split; [reflexivity|]. split; [lia|].
      split; [discriminate|]. intros [Y|[j Y]]; [exact Y|discriminate].
  - destruct b as [|x b0].
    + destruct c; [|discriminate]. injection Q as <- <- <-. rewrite !app_nil_r in *. split; [exact IH1|]. split; [cbn; lia|]. split; auto.
    + injection Q as <- <- <-. rewrite IH1, app_nil_r, <- app_assoc. cbn [length] in IH2. split; [reflexivity|]. split; [lia|]. split; [auto|]. intros [Y|[j Y]]; [exact Y|discriminate].
  - injection Q as <- <- <-. rewrite !app_nil_r. split; [exact IH1|]. split; [exact IH2|]. split; [|reflexivity]. intros _. right. exists i. reflexivity.
Qed.
Lemma legal_prefix size : forall h2 h1 (b : list V) c, legal size (h1 ++ h2) b c -> exists b1 c1, legal size h1 b1 c1.
Proof.
  induction h2 as [|e h2 IH] using rev_ind; intros h1 b c L; [rewrite app_nil_r in L; eauto|].
  rewrite app_assoc in L. inversion L as [E|h b0 c0 i o r b' c' L0 Q E]; [symmetry in E; apply app_eq_nil in E; destruct E; discriminate|].
  apply app_inj_tail in E. destruct E as [-> _]. eapply IH; eauto.
Qed.
Lemma legal_at size h1 e h2 (b : list V) c : legal size (h1 ++ e :: h2) b c -> exists b1 c1 b2 c2, legal size h1 b1 c1 /\ queue_op size b1 c1 (snd (fst e)) = Some (snd e, b2, c2).
Proof.
  intros L. replace (h1 ++ e :: h2) with ((h1 ++ [e]) ++ h2) in L by (rewrite <- app_assoc; reflexivity). destruct (legal_prefix size h2 (h1 ++ [e]) b c L) as (b2 & c2 & L2).
  inversion L2 as [E|h b0 c0 i o r b' c' L0 Q E]; [symmetry in E; apply app_eq_nil in E; destruct E; discriminate|]. apply app_inj_tail in E. destruct E as [-> <-]. cbn [fst snd]. eauto 8.
Qed.
End P.
