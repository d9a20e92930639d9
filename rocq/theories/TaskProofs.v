(** Proofs about the task queue. *)
From Coq Require Import List Arith Bool Lia Permutation.
From Verif Require Import TaskModel.
Import ListNotations.

Section P.
Context {task : Type}.
Implicit Types (s : st task) (p : pc task) (t : task).

Definition holding p : bool := match p with PRead | PTake _ | PPop _ | PUnlock _ | PShut => true | _ => false end.
Definition carried p : list task := match p with PUnlock t | PRun t | PRunning t => [t] | _ => [] end.
Definition unstarted p : list task := match p with PUnlock t | PRun t => [t] | _ => [] end.
Definition over p : bool := match p with PShut | PExit => true | _ => false end.
Definition pc_ok (s : st task) p : Prop :=
  match p with
  | PTake n => n = length (q s) /\ 0 < n
  | PPop t => exists r, q s = r ++ [t]
  | _ => True
  end.

Record inv (tasks : list task) (n : nat) s : Prop := INV {
  v_lock : forall i p, nth_error (ths s) i = Some p -> holding p = true -> lock s = Some i;
  v_held : forall i, lock s = Some i -> exists p, nth_error (ths s) i = Some p /\ holding p = true;
  v_pc : forall i p, nth_error (ths s) i = Some p -> pc_ok s p;
  v_fin : Permutation tasks (q s ++ flat_map carried (ths s) ++ finished s);
  v_sta : Permutation tasks (q s ++ flat_map unstarted (ths s) ++ started s);
  v_over : forall i p, nth_error (ths s) i = Some p -> over p = true -> q s = [];
  v_main : match main s with
           | MCreate k => length (ths s) + k = n
           | MJoin k => length (ths s) = n /\ k <= n /\ (forall j, j < k -> nth_error (ths s) j = Some PExit)
           | MDone => length (ths s) = n /\ (forall j, j < n -> nth_error (ths s) j = Some PExit)
           | MFailed => True
           end }.

Lemma put_split {A} (l : list A) i x y : nth_error l i = Some x -> exists a b, l = a ++ x :: b /\ length a = i /\ put l i y = a ++ y :: b.
Proof.
  revert i. induction l as [|z l IH]; intros [|i] H; cbn in H; try discriminate.
  - injection H as ->. exists [], l. auto.
  - destruct (IH i H) as (a & b & -> & L & E). exists (z :: a), b. cbn [length put app]. rewrite E. auto.
Qed.
Lemma put_length {A} (l : list A) : forall i x, length (put l i x) = length l.
Proof. induction l as [|a l IH]; intros [|i] x; cbn; auto. Qed.
Lemma nth_put {A} (l : list A) : forall i j x, i < length l -> nth_error (put l i x) j = if Nat.eqb i j then Some x else nth_error l j.
Proof.
  induction l as [|a l IH]; intros [|i] [|j] x H; cbn in *; try lia; try reflexivity. apply IH. lia.
Qed.
Lemma nth_len {A} (l : list A) i x : nth_error l i = Some x -> i < length l.
Proof. intros H. apply nth_error_Some. congruence. Qed.

(** Moving one worker changes what the workers carry only at that worker. *)
Lemma flat_put (f : pc task -> list task) l i p p' : nth_error l i = Some p ->
  exists a b, flat_map f l = a ++ f p ++ b /\ flat_map f (put l i p') = a ++ f p' ++ b.
Proof.
  intros H. destruct (put_split l i p p' H) as (a & b & E & _ & E'). exists (flat_map f a), (flat_map f b).
  rewrite E', E. rewrite !flat_map_app. cbn [flat_map]. auto.
Qed.
Lemma flat_same (f : pc task -> list task) l i p p' : nth_error l i = Some p -> f p = f p' -> flat_map f (put l i p') = flat_map f l.
Proof. intros H E. destruct (flat_put f l i p p' H) as (a & b & -> & ->). rewrite E. reflexivity. Qed.

Lemma removelast_snoc {A} (l : list A) x : removelast (l ++ [x]) = l.
Proof. apply removelast_last. Qed.
Lemma last_nth {A} (l : list A) x : nth_error l (length l - 1) = Some x -> exists r, l = r ++ [x].
Proof.
  intros H. destruct l as [|y l] using rev_ind; [discriminate|]. exists l. rewrite app_length in H. cbn in H.
  replace (length l + 1 - 1) with (length l) in H by lia. rewrite nth_error_app2, Nat.sub_diag in H by lia. cbn in H. congruence.
Qed.

Lemma inv_init tasks n : inv tasks n (init tasks n).
Proof.
  constructor; cbn; try rewrite app_nil_r; auto; try (intros [|i] p H; discriminate). intros i H. discriminate.
Qed.

(** A worker that moves from [p] to [p'] without touching the queue size relation. *)
Lemma inv_caller w tasks n s s' : inv tasks n s -> (w = true -> n <= 64) -> caller w s = Some s' -> inv tasks n s'.
Proof.
  intros [L H P F S O M] W E. unfold caller in E. destruct (main s) as [[|k]|k| |] eqn:MM; try discriminate.
  - injection E as <-. constructor; cbn [q lock ths main started finished]; try assumption. rewrite Nat.add_0_r in M. split; [exact M|]. split; [lia|]. intros j J. lia.
  - injection E as <-. assert (X : forall i p, nth_error (ths s ++ [PLock]) i = Some p -> nth_error (ths s) i = Some p \/ p = PLock).
    { intros i p G. destruct (Nat.lt_ge_cases i (length (ths s))); [left; rewrite nth_error_app1 in G by assumption; exact G|right].
      rewrite nth_error_app2 in G by assumption. destruct (i - length (ths s)) as [|[|m]]; cbn in G; congruence. }
    constructor; cbn [q lock ths main started finished].
    + intros i p G. destruct (X i p G) as [Y| ->]; [apply L; exact Y|discriminate].
    + intros i G. destruct (H i G) as (p & G1 & G2). exists p. split; [|exact G2]. rewrite nth_error_app1; [exact G1|]. eapply nth_len, G1.
    + intros i p G. destruct (X i p G) as [Y| ->]; [apply (P i p Y)|exact I].
    + rewrite flat_map_app. cbn. rewrite app_nil_r. exact F.
    + rewrite flat_map_app. cbn. rewrite app_nil_r. exact S.
    + intros i p G. destruct (X i p G) as [Y| ->]; [apply (O i p Y)|discriminate].
    + rewrite app_length. cbn. lia.
  - destruct w.
    + destruct M as (M1 & M2 & M3). destruct (Nat.ltb_spec 64 (length (ths s))) as [X|X]; [specialize (W eq_refl); lia|]. cbn [orb] in E.
      destruct (forallb is_exit (ths s)) eqn:B; [|discriminate]. injection E as <-. constructor; cbn [q lock ths main started finished]; try assumption.
      split; [exact M1|]. intros j J. destruct (nth_error (ths s) j) as [p|] eqn:G; [|apply nth_error_None in G; lia].
      rewrite forallb_forall in B. specialize (B p (nth_error_In _ _ G)). destruct p; try discriminate. reflexivity.
    + destruct M as (M1 & M2 & M3). destruct (Nat.eqb_spec k (length (ths s))) as [X|X].
      * injection E as <-. constructor; cbn [q lock ths main started finished]; try assumption. split; [exact M1|]. intros j J. apply M3. lia.
      * destruct (nth_error (ths s) k) as [[]|] eqn:G; try discriminate. injection E as <-. constructor; cbn [q lock ths main started finished]; try assumption.
        pose proof (nth_len _ _ _ G). split; [exact M1|]. split; [lia|]. intros j J. destruct (Nat.eq_dec j k) as [->|]; [exact G|]. apply M3. lia.
Qed.

Lemma main_put s i p p' n : nth_error (ths s) i = Some p -> p <> PExit ->
  match main s with
           | MCreate k => length (ths s) + k = n
           | MJoin k => length (ths s) = n /\ k <= n /\ (forall j, j < k -> nth_error (ths s) j = Some PExit)
           | MDone => length (ths s) = n /\ (forall j, j < n -> nth_error (ths s) j = Some PExit)
           | MFailed => True
           end ->
  match main s with
           | MCreate k => length (put (ths s) i p') + k = n
           | MJoin k => length (put (ths s) i p') = n /\ k <= n /\ (forall j, j < k -> nth_error (put (ths s) i p') j = Some PExit)
           | MDone => length (put (ths s) i p') = n /\ (forall j, j < n -> nth_error (put (ths s) i p') j = Some PExit)
           | MFailed => True
           end.
Proof.
  intros H N M. rewrite put_length. pose proof (nth_len _ _ _ H) as L. destruct (main s) as [k|k| |]; try exact M.
  - destruct M as (M1 & M2 & M3). split; [exact M1|]. split; [exact M2|]. intros j J. rewrite nth_put by exact L.
    destruct (Nat.eqb_spec i j) as [->|]; [|apply M3; exact J]. rewrite (M3 j J) in H. congruence.
  - destruct M as (M1 & M3). split; [exact M1|]. intros j J. rewrite nth_put by exact L.
    destruct (Nat.eqb_spec i j) as [->|]; [|apply M3; exact J]. rewrite (M3 j J) in H. congruence.
Qed.

Lemma inv_worker tasks n s i s' : inv tasks n s -> worker s i = Some s' -> inv tasks n s'.
Proof.
  intros [L H P F S O M] E. unfold worker in E. destruct (nth_error (ths s) i) as [p|] eqn:G; [|discriminate].
  pose proof (nth_len _ _ _ G) as LI.
  (* other workers *)
  assert (OT : forall p' j x, nth_error (put (ths s) i p') j = Some x -> (j = i /\ x = p') \/ (j <> i /\ nth_error (ths s) j = Some x)).
  { intros p' j x Y. rewrite nth_put in Y by exact LI. destruct (Nat.eqb_spec i j) as [<-|]; [left; split; congruence|right; auto]. }
  assert (SELF : forall p', nth_error (put (ths s) i p') i = Some p') by (intros p'; rewrite nth_put, Nat.eqb_refl by exact LI; reflexivity).
  assert (EXCL : forall j x, holding p = true -> nth_error (ths s) j = Some x -> holding x = true -> j = i).
  { intros j x Hp Gj Hx. pose proof (L _ _ G Hp). pose proof (L _ _ Gj Hx). congruence. }
  destruct p as [| |m|t|t|t|t| |]; try discriminate.
  - (* lock *) destruct (lock s) as [k|] eqn:LK; [discriminate|]. injection E as <-. constructor; cbn [q lock ths main started finished].
    + intros j x Y Hx. destruct (OT _ _ _ Y) as [[-> ->]|[NJ Y']]; [reflexivity|]. specialize (L _ _ Y' Hx). congruence.
    + intros j [= <-]. exists PRead. auto.
    + intros j x Y. destruct (OT _ _ _ Y) as [[-> ->]|[NJ Y']]; [exact I|apply (P _ _ Y')].
    + rewrite (flat_same carried _ _ _ PRead G) by reflexivity. exact F.
    + rewrite (flat_same unstarted _ _ _ PRead G) by reflexivity. exact S.
    + intros j x Y Hx. destruct (OT _ _ _ Y) as [[-> ->]|[NJ Y']]; [discriminate|]. apply (O _ _ Y' Hx).
    + apply (main_put s i _ _ n G); [discriminate|exact M].
  - (* read *) injection E as <-. set (p' := if Nat.eqb (length (q s)) 0 then PShut else PTake (length (q s))).
    assert (HP : holding p' = true) by (unfold p'; destruct (Nat.eqb _ _); reflexivity).
    constructor; cbn [q lock ths main started finished].
    + intros j x Y Hx. destruct (OT _ _ _ Y) as [[-> ->]|[NJ Y']]; [apply (L _ _ G eq_refl)|]. apply (L _ _ Y' Hx).
    + intros j Hj. rewrite (L _ _ G eq_refl) in Hj. injection Hj as <-. exists p'. auto.
    + intros j x Y. destruct (OT _ _ _ Y) as [[-> ->]|[NJ Y']]; [|apply (P _ _ Y')]. unfold p'. destruct (Nat.eqb_spec (length (q s)) 0); cbn; [exact I|lia].
    + rewrite (flat_same carried _ _ _ p' G); [exact F|]. unfold p'. destruct (Nat.eqb _ _); reflexivity.
    + rewrite (flat_same unstarted _ _ _ p' G); [exact S|]. unfold p'. destruct (Nat.eqb _ _); reflexivity.
    + intros j x Y Hx. destruct (OT _ _ _ Y) as [[-> ->]|[NJ Y']]; [|apply (O _ _ Y' Hx)]. unfold p' in Hx. destruct (Nat.eqb_spec (length (q s)) 0) as [Z|Z]; [|discriminate]. destruct (q s); [reflexivity|discriminate].
    + apply (main_put s i _ _ n G); [discriminate|exact M].
  - (* take *) pose proof (P _ _ G) as [Pm Pz]. destruct (nth_error (q s) (m - 1)) as [t|] eqn:T; [|discriminate]. injection E as <-. subst m.
    apply last_nth in T. constructor; cbn [q lock ths main started finished].
    + intros j x Y Hx. destruct (OT _ _ _ Y) as [[-> ->]|[NJ Y']]; [apply (L _ _ G eq_refl)|]. apply (L _ _ Y' Hx).
    + intros j Hj. rewrite (L _ _ G eq_refl) in Hj. injection Hj as <-. exists (PPop t). auto.
    + intros j x Y. destruct (OT _ _ _ Y) as [[-> ->]|[NJ Y']]; [exact T|apply (P _ _ Y')].
    + rewrite (flat_same carried _ _ _ (PPop t) G) by reflexivity. exact F.
    + rewrite (flat_same unstarted _ _ _ (PPop t) G) by reflexivity. exact S.
    + intros j x Y Hx. destruct (OT _ _ _ Y) as [[-> ->]|[NJ Y']]; [discriminate|apply (O _ _ Y' Hx)].
    + apply (main_put s i _ _ n G); [discriminate|exact M].
  - (* pop *) injection E as <-. destruct (P _ _ G) as [r Q]. rewrite Q in *. rewrite removelast_snoc.
    constructor; cbn [q lock ths main started finished].
    + intros j x Y Hx. destruct (OT _ _ _ Y) as [[-> ->]|[NJ Y']]; [apply (L _ _ G eq_refl)|]. apply (L _ _ Y' Hx).
    + intros j Hj. rewrite (L _ _ G eq_refl) in Hj. injection Hj as <-. exists (PUnlock t). auto.
    + intros j x Y. destruct (OT _ _ _ Y) as [[-> ->]|[NJ Y']]; [exact I|]. destruct x; try exact I; exfalso; apply NJ; apply (EXCL j _ eq_refl Y' eq_refl).
    + destruct (flat_put carried _ _ _ (PUnlock t) G) as (a & b & Ea & Eb). rewrite Eb. rewrite Ea in F. cbn [carried app] in *.
      etransitivity; [exact F|]. rewrite <- !app_assoc. apply Permutation_app_head. cbn [app]. apply Permutation_middle.
    + destruct (flat_put unstarted _ _ _ (PUnlock t) G) as (a & b & Ea & Eb). rewrite Eb. rewrite Ea in S. cbn [unstarted app] in *.
      etransitivity; [exact S|]. rewrite <- !app_assoc. apply Permutation_app_head. cbn [app]. apply Permutation_middle.
    + intros j x Y Hx. destruct (OT _ _ _ Y) as [[-> ->]|[NJ Y']]; [discriminate|]. specialize (O _ _ Y' Hx). destruct r; discriminate.
    + apply (main_put s i _ _ n G); [discriminate|exact M].
  - (* unlock *) injection E as <-. constructor; cbn [q lock ths main started finished].
    + intros j x Y Hx. destruct (OT _ _ _ Y) as [[-> ->]|[NJ Y']]; [discriminate|]. exfalso. apply NJ. apply (EXCL j x eq_refl Y' Hx).
    + intros j Hj. discriminate.
    + intros j x Y. destruct (OT _ _ _ Y) as [[-> ->]|[NJ Y']]; [exact I|apply (P _ _ Y')].
    + rewrite (flat_same carried _ _ _ (PRun t) G) by reflexivity. exact F.
    + rewrite (flat_same unstarted _ _ _ (PRun t) G) by reflexivity. exact S.
    + intros j x Y Hx. destruct (OT _ _ _ Y) as [[-> ->]|[NJ Y']]; [discriminate|apply (O _ _ Y' Hx)].
    + apply (main_put s i _ _ n G); [discriminate|exact M].
  - (* start *) injection E as <-. constructor; cbn [q lock ths main started finished].
    + intros j x Y Hx. destruct (OT _ _ _ Y) as [[-> ->]|[NJ Y']]; [discriminate|apply (L _ _ Y' Hx)].
    + intros j Hj. destruct (H j Hj) as (x & X1 & X2). exists x. split; [|exact X2]. rewrite nth_put by exact LI. destruct (Nat.eqb_spec i j) as [->|]; [|exact X1]. rewrite G in X1. injection X1 as <-. discriminate.
    + intros j x Y. destruct (OT _ _ _ Y) as [[-> ->]|[NJ Y']]; [exact I|apply (P _ _ Y')].
    + rewrite (flat_same carried _ _ _ (PRunning t) G) by reflexivity. exact F.
    + destruct (flat_put unstarted _ _ _ (PRunning t) G) as (a & b & Ea & Eb). rewrite Eb. rewrite Ea in S. cbn [unstarted app] in *.
      etransitivity; [exact S|]. apply Permutation_app_head. rewrite <- !app_assoc. apply Permutation_app_head. cbn [app].
      etransitivity; [apply Permutation_middle|]. apply Permutation_app_head. rewrite Permutation_app_comm. reflexivity.
    + intros j x Y Hx. destruct (OT _ _ _ Y) as [[-> ->]|[NJ Y']]; [discriminate|apply (O _ _ Y' Hx)].
    + apply (main_put s i _ _ n G); [discriminate|exact M].
  - (* finish *) injection E as <-. constructor; cbn [q lock ths main started finished].
    + intros j x Y Hx. destruct (OT _ _ _ Y) as [[-> ->]|[NJ Y']]; [discriminate|apply (L _ _ Y' Hx)].
    + intros j Hj. destruct (H j Hj) as (x & X1 & X2). exists x. split; [|exact X2]. rewrite nth_put by exact LI. destruct (Nat.eqb_spec i j) as [->|]; [|exact X1]. rewrite G in X1. injection X1 as <-. discriminate.
    + intros j x Y. destruct (OT _ _ _ Y) as [[-> ->]|[NJ Y']]; [exact I|apply (P _ _ Y')].
    + destruct (flat_put carried _ _ _ PLock G) as (a & b & Ea & Eb). rewrite Eb. rewrite Ea in F. cbn [carried app] in *.
      etransitivity; [exact F|]. apply Permutation_app_head. rewrite <- !app_assoc. apply Permutation_app_head. cbn [app].
      etransitivity; [apply Permutation_middle|]. apply Permutation_app_head. rewrite Permutation_app_comm. reflexivity.
    + rewrite (flat_same unstarted _ _ _ PLock G) by reflexivity. exact S.
    + intros j x Y Hx. destruct (OT _ _ _ Y) as [[-> ->]|[NJ Y']]; [discriminate|apply (O _ _ Y' Hx)].
    + apply (main_put s i _ _ n G); [discriminate|exact M].
  - (* shut *) injection E as <-. constructor; cbn [q lock ths main started finished].
    + intros j x Y Hx. destruct (OT _ _ _ Y) as [[-> ->]|[NJ Y']]; [discriminate|]. exfalso. apply NJ. apply (EXCL j x eq_refl Y' Hx).
    + intros j Hj. discriminate.
    + intros j x Y. destruct (OT _ _ _ Y) as [[-> ->]|[NJ Y']]; [exact I|apply (P _ _ Y')].
    + rewrite (flat_same carried _ _ _ PExit G) by reflexivity. exact F.
    + rewrite (flat_same unstarted _ _ _ PExit G) by reflexivity. exact S.
    + intros j x Y Hx. destruct (OT _ _ _ Y) as [[-> ->]|[NJ Y']]; [apply (O _ _ G eq_refl)|apply (O _ _ Y' Hx)].
    + apply (main_put s i _ _ n G); [discriminate|exact M].
Qed.

Lemma inv_step w tasks n s c s' : inv tasks n s -> (w = true -> n <= 64) -> step w s c = Some s' -> inv tasks n s'.
Proof.
  intros I W E. destruct c as [| |i]; cbn [step] in E.
  - eapply inv_caller; eassumption.
  - destruct (main s) as [[|k]|k| |] eqn:MM; try discriminate. injection E as <-. destruct I. constructor; cbn [q lock ths main started finished]; try assumption. exact Logic.I.
  - eapply inv_worker; eassumption.
Qed.
Lemma inv_run w tasks n : forall sched s s', inv tasks n s -> (w = true -> n <= 64) -> run w s sched = Some s' -> inv tasks n s'.
Proof.
  induction sched as [|c sched IH]; intros s s' I W E; cbn [run] in E; [injection E as <-; exact I|].
  destruct (step w s c) as [s1|] eqn:Q; [|discriminate]. eapply IH; [|exact W|exact E]. eapply inv_step; eassumption.
Qed.

Lemma all_exit_nil (f : pc task -> list task) l : f PExit = [] -> (forall j, j < length l -> nth_error l j = Some PExit) -> flat_map f l = [].
Proof.
  intros F H. induction l as [|p l IH]; [reflexivity|]. cbn [flat_map]. pose proof (H 0 ltac:(cbn; lia)) as H0. injection H0 as ->. rewrite F. cbn. apply IH.
  intros j J. apply (H (S j)). cbn. lia.
Qed.
Lemma inv_done tasks n s : 0 < n -> inv tasks n s -> main s = MDone -> Permutation tasks (finished s) /\ Permutation tasks (started s) /\ q s = [].
Proof.
  intros N [L H P F S O M] E. rewrite E in M. destruct M as [M1 M2].
  assert (Q : q s = []) by (apply (O 0 PExit); [apply M2; lia|reflexivity]).
  rewrite Q in F, S. rewrite (all_exit_nil carried) in F; [|reflexivity|intros; apply M2; lia].
  rewrite (all_exit_nil unstarted) in S; [|reflexivity|intros; apply M2; lia]. auto.
Qed.

Lemma worker_moves tasks n s i p : inv tasks n s -> nth_error (ths s) i = Some p -> p <> PExit -> (lock s = None \/ holding p = true) -> exists s', worker s i = Some s'.
Proof.
  intros I G NE LK. unfold worker. rewrite G. destruct p as [| |m|t|t|t|t| |]; eauto.
  - destruct (lock s); [destruct LK; discriminate|eauto].
  - destruct (v_pc _ _ _ I _ _ G) as [E Z]. destruct (nth_error (q s) (m - 1)) eqn:T; [eauto|]. apply nth_error_None in T. lia.
  - congruence.
Qed.
Lemma progress w tasks n s : inv tasks n s -> main s <> MDone -> main s <> MFailed -> exists c s', step w s c = Some s'.
Proof.
  intros I D Fl. destruct (main s) as [[|k]|k| |] eqn:MM; try congruence.
  - exists Caller. cbn [step]. unfold caller. rewrite MM. eauto.
  - exists Caller. cbn [step]. unfold caller. rewrite MM. eauto.
  - destruct (lock s) as [i|] eqn:LK.
    + destruct (v_held _ _ _ I i LK) as (p & G & Hp). destruct (worker_moves tasks n s i p I G) as (s' & E); [intros ->; discriminate|auto|]. exists (Worker i), s'. exact E.
    + destruct (forallb is_exit (ths s)) eqn:B.
      * exists Caller. cbn [step]. unfold caller. rewrite MM, B, orb_true_r. destruct w; [eauto|]. destruct (Nat.eqb_spec k (length (ths s))); [eauto|].
        pose proof (v_main _ _ _ I) as M. rewrite MM in M. destruct M as (M1 & M2 & _). destruct (nth_error (ths s) k) as [p|] eqn:G; [|apply nth_error_None in G; lia].
        rewrite forallb_forall in B. specialize (B p (nth_error_In _ _ G)). destruct p; try discriminate. eauto.
      * assert (X : exists i p, nth_error (ths s) i = Some p /\ p <> PExit).
        { clear - B. induction (ths s) as [|p l IH]; [discriminate|]. cbn in B. destruct (is_exit p) eqn:E; [|exists 0, p; split; [reflexivity|intros ->; discriminate]].
          destruct (IH B) as (i & x & X). exists (S i), x. exact X. }
        destruct X as (i & p & G & NE). destruct (worker_moves tasks n s i p I G NE) as (s' & E); [auto|]. exists (Worker i), s'. exact E.
Qed.

(** Every step uses up some of a finite amount of work. *)
Definition weight p : nat := match p with PLock => 3 | PRead => 2 | PShut => 1 | PExit => 0 | PTake _ => 1 | PPop _ => 0 | PUnlock _ => 7 | PRun _ => 6 | PRunning _ => 5 end.
Definition mweight n (m : mpc) : nat := match m with MCreate k => 5 * k + n + 3 | MJoin k => n + 2 - k | MDone => 0 | MFailed => 0 end.
Definition work n s : nat := list_sum (map weight (ths s)) + 8 * length (q s) + mweight n (main s).
Lemma sum_put l i p p' : nth_error l i = Some p -> list_sum (map weight (put l i p')) + weight p = list_sum (map weight l) + weight p'.
Proof.
  intros H. destruct (put_split l i p p' H) as (a & b & E & _ & E'). rewrite E', E, !map_app. cbn [map].
  rewrite !list_sum_app. cbn [list_sum fold_right]. unfold list_sum. lia.
Qed.
Lemma work_step w tasks n s c s' : inv tasks n s -> step w s c = Some s' -> work n s' < work n s.
Proof.
  intros I E. pose proof (v_main _ _ _ I) as M. unfold work. destruct c as [| |i]; cbn [step] in E.
  - unfold caller in E. destruct (main s) as [[|k]|k| |] eqn:MM; try discriminate.
    + injection E as <-. cbn [ths q main mweight]. lia.
    + injection E as <-. cbn [ths q main mweight]. rewrite map_app, list_sum_app. cbn. lia.
    + destruct M as (M1 & M2 & _). destruct w.
      * destruct (_ || _); [|discriminate]. injection E as <-. cbn [ths q main mweight]. lia.
      * destruct (Nat.eqb_spec k (length (ths s))); [injection E as <-; cbn [ths q main mweight]; lia|].
        destruct (nth_error (ths s) k) as [[]|] eqn:G; try discriminate. pose proof (nth_len _ _ _ G). injection E as <-. cbn [ths q main mweight]. lia.
  - destruct (main s) as [[|k]|k| |] eqn:MM; try discriminate. injection E as <-. cbn [ths q main mweight]. lia.
  - unfold worker in E. destruct (nth_error (ths s) i) as [p|] eqn:G; [|discriminate].
    pose proof (fun p' => sum_put (ths s) i p p' G) as SP.
    destruct p as [| |m|t|t|t|t| |]; try discriminate.
    + destruct (lock s); [discriminate|]. injection E as <-. cbn [ths q main]. specialize (SP PRead). cbn [weight] in SP. lia.
    + injection E as <-. cbn [ths q main]. destruct (Nat.eqb (length (q s)) 0); [specialize (SP PShut)|specialize (SP (PTake (length (q s))))]; cbn [weight] in SP; lia.
    + destruct (nth_error (q s) (m - 1)) as [t|]; [|discriminate]. injection E as <-. cbn [ths q main]. specialize (SP (PPop t)). cbn [weight] in SP. lia.
    + injection E as <-. cbn [ths q main]. destruct (v_pc _ _ _ I _ _ G) as [r Q]. rewrite Q, removelast_snoc, app_length. cbn [length]. specialize (SP (PUnlock t)). cbn [weight] in SP. lia.
    + injection E as <-. cbn [ths q main]. specialize (SP (PRun t)). cbn [weight] in SP. lia.
    + injection E as <-. cbn [ths q main]. specialize (SP (PRunning t)). cbn [weight] in SP. lia.
    + injection E as <-. cbn [ths q main]. specialize (SP PLock). cbn [weight] in SP. lia.
    + injection E as <-. cbn [ths q main]. specialize (SP PExit). cbn [weight] in SP. lia.
Qed.
Lemma run_bound w tasks n : forall sched s s', inv tasks n s -> (w = true -> n <= 64) -> run w s sched = Some s' -> length sched + work n s' <= work n s.
Proof.
  induction sched as [|c sched IH]; intros s s' I W E; cbn [run] in E; [injection E as <-; cbn; lia|].
  destruct (step w s c) as [s1|] eqn:Q; [|discriminate]. pose proof (work_step w tasks n s c s1 I Q). pose proof (inv_step w tasks n s c s1 I W Q) as I1.
  specialize (IH s1 s' I1 W E). cbn [length]. lia.
Qed.
End P.
