(** Which thread holds which mutex of an unbuffered channel, for any number of threads, any operations and any schedule. *)
From Coq Require Import List Arith Bool Lia.
From Verif Require Import ChanModel ChanSpec ChanUModel ChanProofs.
Import ListNotations.

Section L.
Context {V : Type}.
Implicit Types (p : upc V) (s : ust V) (t : uthread V).
Definition legal p : bool := match p with
  | USide Close | UAsleep Close | UWoken Close | UOut1 Close _ | UOut2 Close _ | UFail1 Close | UFail2 Close => false | _ => true end.
Definition in_mu p : bool := match p with
  | USide _ | UBody _ | USig _ | UWait _ | UBack _ | UTake | URsig _ | UOut1 _ _ | UFail1 _ | UFail2 _ | UBcast | URelease => true | _ => false end.
Definition in_send p : bool := match p with
  | UBody (Push _) | USig _ | UWait _ | UAsleep (Push _) | UWoken (Push _) | UBack _ | UOut1 (Push _) _ | UOut2 (Push _) _ | UFail1 (Push _) => true | _ => false end.
Definition in_read p : bool := match p with
  | UBody Pop | UAsleep Pop | UWoken Pop | UTake | URsig _ | UOut1 Pop _ | UOut2 Pop _ | UFail1 Pop => true | _ => false end.
Definition owner (m : option nat) i (b : bool) : Prop := m = Some i <-> b = true.
Definition okth m ms mr i t : Prop := legal (uat t) = true /\ owner m i (in_mu (uat t)) /\ owner ms i (in_send (uat t)) /\ owner mr i (in_read (uat t)).
Definition locks s : Prop := forall i t, nth_error (uths s) i = Some t -> okth (umu s) (usend_mu s) (uread_mu s) i t.

Lemma wake_same t : legal (uat (uwake t)) = legal (uat t) /\ in_mu (uat (uwake t)) = in_mu (uat t) /\
  in_send (uat (uwake t)) = in_send (uat t) /\ in_read (uat (uwake t)) = in_read (uat t).
Proof. unfold uwake. destruct t as [pr [] h]; cbn; auto. Qed.
Lemma wake_ok m ms mr i t : okth m ms mr i t -> okth m ms mr i (uwake t).
Proof. unfold okth. destruct (wake_same t) as (-> & -> & -> & ->). auto. Qed.
Lemma put_ok l i t (P : nat -> uthread V -> Prop) : (forall j u, nth_error l j = Some u -> j <> i -> P j u) -> P i t ->
  forall j u, nth_error (put l i t) j = Some u -> P j u.
Proof.
  intros H Hi j u E. destruct (Nat.lt_ge_cases i (length l)) as [L|L].
  - rewrite nth_put in E by exact L. destruct (Nat.eqb_spec i j) as [<-|N]; [congruence|]. apply H; auto.
  - assert (EL : put l i t = l). { clear - L. revert i L. induction l as [|a l IH]; intros [|i] L; cbn in *; try lia; try reflexivity. f_equal. apply IH. lia. }
    rewrite EL in E. destruct (Nat.eq_dec j i) as [->|N]; [|apply H; auto].
    assert (nth_error l i = None) by (apply nth_error_None; lia). congruence.
Qed.
Lemma signal_locks f s j s1 : locks s -> usignal f s j = Some s1 -> locks s1 /\
  umu s1 = umu s /\ usend_mu s1 = usend_mu s /\ uread_mu s1 = uread_mu s.
Proof.
  unfold usignal. intros L. destruct (nth_error (uths s) j) as [t|] eqn:E.
  - destruct (f t).
    + intros [= <-]. split; [|auto]. intros i u. cbn [uths with_ths umu usend_mu uread_mu].
      apply put_ok; [intros k w Hk _; apply L, Hk|]. apply wake_ok, L, E.
    + destruct (existsb _ _); [discriminate|]. intros [= <-]. auto.
  - destruct (existsb _ _); [discriminate|]. intros [= <-]. auto.
Qed.

Lemma move_locks s i j s' : locks s -> umove s i j = Some s' -> locks s'.
Proof.
  intros L H. unfold umove in H. destruct (nth_error (uths s) i) as [t|] eqn:E; [|discriminate].
  pose proof (L i t E) as (Lg & Lm & Ls & Lr).
  assert (Gen : forall s1 t', locks s1 -> uths s' = put (uths s1) i t' ->
    (forall k, k <> i -> (umu s' = Some k <-> umu s1 = Some k)) ->
    (forall k, k <> i -> (usend_mu s' = Some k <-> usend_mu s1 = Some k)) ->
    (forall k, k <> i -> (uread_mu s' = Some k <-> uread_mu s1 = Some k)) ->
    okth (umu s') (usend_mu s') (uread_mu s') i t' -> locks s').
  { intros s1 t' L1 Et Hm Hs Hr Ht k u Hk. rewrite Et in Hk. revert k u Hk. apply put_ok; [|exact Ht].
    intros k u Hk Nk. destruct (L1 k u Hk) as (A & B & C & D). unfold okth, owner in *.
    rewrite (Hm k Nk), (Hs k Nk), (Hr k Nk). auto. }
  destruct t as [pr at_ h]. cbn [uat uprog uhist] in *.
  Local Ltac fin_step Gen s L :=
    eapply (Gen s); [exact L|reflexivity|cbn; intros; try tauto; split; intros; congruence|cbn; intros; try tauto; split; intros; congruence|cbn; intros; try tauto; split; intros; congruence|].
  destruct at_ as [|o|o|o|v|v|o|o|v| |v|o r|o r|o|o| |].
  - destruct pr as [|o r]; [discriminate|]. injection H as <-. fin_step Gen s L. unfold okth, owner in *; cbn in *; auto.
  - destruct (umu s) eqn:Em; [discriminate|]. injection H as <-. eapply (Gen s); [exact L|reflexivity| | | |].
    + cbn. rewrite Em. intros k Nk. split; intros; congruence.
    + cbn. tauto.
    + cbn. tauto.
    + unfold okth, owner in *; cbn in *. destruct o; cbn; repeat split; auto; try (intros; congruence); try (apply Ls); try (apply Lr).
  - destruct o as [v| |]; [| |discriminate Lg]; cbn [side with_side] in H.
    + destruct (usend_mu s) eqn:Em; [discriminate|]. injection H as <-. eapply (Gen s); [exact L|reflexivity| | | |].
      * cbn. tauto.
      * cbn. rewrite Em. intros k Nk. split; intros; congruence.
      * cbn. tauto.
      * unfold okth, owner in *; cbn in *; repeat split; auto; try (apply Lm); try (apply Lr).
    + destruct (uread_mu s) eqn:Em; [discriminate|]. injection H as <-. eapply (Gen s); [exact L|reflexivity| | | |].
      * cbn. tauto.
      * cbn. tauto.
      * cbn. rewrite Em. intros k Nk. split; intros; congruence.
      * unfold okth, owner in *; cbn in *; repeat split; auto; try (apply Lm); try (apply Ls).
  - destruct o as [v| |].
    + destruct (uclosed s); injection H as <-; (eapply (Gen s); [exact L|reflexivity|cbn; tauto|cbn; tauto|cbn; tauto|]; unfold okth, owner in *; cbn in *; auto).
    + destruct (negb (uclosed s) && Nat.eqb (usend_waiting s) 0); injection H as <-.
      * eapply (Gen s); [exact L|reflexivity| |cbn; tauto|cbn; tauto|].
        { cbn. intros k Nk. assert (umu s = Some i) by (apply Lm; reflexivity). split; intros; congruence. }
        unfold okth, owner in *; cbn in *; repeat split; auto; try (intros; congruence); try (apply Ls); try (apply Lr).
      * eapply (Gen s); [exact L|reflexivity|cbn; tauto|cbn; tauto|cbn; tauto|]; unfold okth, owner in *; cbn in *; auto.
    + injection H as <-. eapply (Gen s); [exact L|reflexivity|cbn; tauto|cbn; tauto|cbn; tauto|]; unfold okth, owner in *; cbn in *; auto.
  - destruct (Nat.ltb 0 (uread_waiting s)).
    + destruct (usignal usleeps_read s j) as [s1|] eqn:Es; [|discriminate]. destruct (signal_locks _ _ _ _ L Es) as (L1 & E1 & E2 & E3). injection H as <-.
      eapply (Gen s1); [exact L1|reflexivity|cbn; tauto|cbn; tauto|cbn; tauto|]; unfold okth, owner in *; cbn in *; rewrite ?E1, ?E2, ?E3; auto.
    + injection H as <-. eapply (Gen s); [exact L|reflexivity|cbn; tauto|cbn; tauto|cbn; tauto|]; unfold okth, owner in *; cbn in *; auto.
  - injection H as <-. eapply (Gen s); [exact L|reflexivity| |cbn; tauto|cbn; tauto|].
    { cbn. intros k Nk. assert (umu s = Some i) by (apply Lm; reflexivity). split; intros; congruence. }
    unfold okth, owner in *; cbn in *; repeat split; auto; try (intros; congruence); try (apply Ls); try (apply Lr).
  - discriminate.
  - destruct o as [v| |]; [| |discriminate Lg].
    + destruct (umu s) eqn:Em; [discriminate|]. injection H as <-. eapply (Gen s); [exact L|reflexivity| |cbn; tauto|cbn; tauto|].
      { cbn. rewrite Em. intros k Nk. split; intros; congruence. }
      unfold okth, owner in *; cbn in *; repeat split; auto; try (apply Ls); try (apply Lr).
    + destruct (umu s) eqn:Em; [discriminate|]. injection H as <-. eapply (Gen s); [exact L|reflexivity| |cbn; tauto|cbn; tauto|].
      { cbn. rewrite Em. intros k Nk. split; intros; congruence. }
      unfold okth, owner in *; cbn in *; repeat split; auto; try (apply Ls); try (apply Lr).
  - injection H as <-. eapply (Gen s); [exact L|reflexivity|cbn; tauto|cbn; tauto|cbn; tauto|]; unfold okth, owner in *; cbn in *; destruct (uclosed s); cbn; auto.
  - destruct (uclosed s); injection H as <-; (eapply (Gen s); [exact L|reflexivity|cbn; tauto|cbn; tauto|cbn; tauto|]; unfold okth, owner in *; cbn in *; auto).
  - destruct (usignal usleeps_send s j) as [s1|] eqn:Es; [|discriminate]. destruct (signal_locks _ _ _ _ L Es) as (L1 & E1 & E2 & E3). injection H as <-.
    eapply (Gen s1); [exact L1|reflexivity|cbn; tauto|cbn; tauto|cbn; tauto|]; unfold okth, owner in *; cbn in *; rewrite ?E1, ?E2, ?E3; auto.
  - injection H as <-. eapply (Gen s); [exact L|reflexivity| |cbn; tauto|cbn; tauto|].
    { cbn. intros k Nk. assert (umu s = Some i) by (apply Lm; reflexivity). split; intros; congruence. }
    unfold okth, owner in *; cbn in *; destruct o; cbn in *; repeat split; auto; try (intros; congruence); try (apply Ls); try (apply Lr).
  - destruct o as [v| |]; [| |discriminate Lg]; cbn [with_side] in H; injection H as <-.
    + eapply (Gen s); [exact L|reflexivity|cbn; tauto| |cbn; tauto|].
      { cbn. intros k Nk. assert (usend_mu s = Some i) by (apply Ls; reflexivity). split; intros; congruence. }
      unfold okth, owner in *; cbn in *; repeat split; auto; try (intros; congruence); try (apply Lm); try (apply Lr).
    + eapply (Gen s); [exact L|reflexivity|cbn; tauto|cbn; tauto| |].
      { cbn. intros k Nk. assert (uread_mu s = Some i) by (apply Lr; reflexivity). split; intros; congruence. }
      unfold okth, owner in *; cbn in *; repeat split; auto; try (intros; congruence); try (apply Lm); try (apply Ls).
  - destruct o as [v| |]; [| |discriminate Lg]; cbn [with_side] in H; injection H as <-.
    + eapply (Gen s); [exact L|reflexivity|cbn; tauto| |cbn; tauto|].
      { cbn. intros k Nk. assert (usend_mu s = Some i) by (apply Ls; reflexivity). split; intros; congruence. }
      unfold okth, owner in *; cbn in *; repeat split; auto; try (intros; congruence); try (apply Lm); try (apply Lr).
    + eapply (Gen s); [exact L|reflexivity|cbn; tauto|cbn; tauto| |].
      { cbn. intros k Nk. assert (uread_mu s = Some i) by (apply Lr; reflexivity). split; intros; congruence. }
      unfold okth, owner in *; cbn in *; repeat split; auto; try (intros; congruence); try (apply Lm); try (apply Ls).
  - injection H as <-. eapply (Gen s); [exact L|reflexivity| |cbn; tauto|cbn; tauto|].
    { cbn. intros k Nk. assert (umu s = Some i) by (apply Lm; reflexivity). split; intros; congruence. }
    unfold okth, owner in *; cbn in *; destruct o; cbn in *; repeat split; auto; try (intros; congruence); try (apply Ls); try (apply Lr).
  - injection H as <-. eapply (Gen (with_ths s (map (@uwake V) (uths s)))); [|reflexivity|cbn; tauto|cbn; tauto|cbn; tauto|].
    + intros k u Hk. cbn in Hk. rewrite nth_error_map in Hk. destruct (nth_error (uths s) k) as [w|] eqn:Ew; [|discriminate].
      injection Hk as <-. apply wake_ok, (L k w Ew).
    + unfold okth, owner in *; cbn in *; auto.
  - injection H as <-. eapply (Gen s); [exact L|reflexivity| |cbn; tauto|cbn; tauto|].
    { cbn. intros k Nk. assert (umu s = Some i) by (apply Lm; reflexivity). split; intros; congruence. }
    unfold okth, owner in *; cbn in *; repeat split; auto; try (intros; congruence); try (apply Ls); try (apply Lr).
Qed.

Lemma step_locks s c s' : locks s -> ustep s c = Some s' -> locks s'.
Proof.
  destruct c as [i j|i]; cbn [ustep]; [apply move_locks|]. intros L.
  destruct (nth_error (uths s) i) as [t|] eqn:E; [|discriminate]. destruct (uat t); try discriminate.
  intros [= <-] k u. cbn [uths with_ths umu usend_mu uread_mu]. revert k u.
  apply put_ok; [intros k w Hk _; apply L, Hk|]. apply wake_ok, L, E.
Qed.
Lemma run_locks sched : forall s s', locks s -> urun s sched = Some s' -> locks s'.
Proof.
  induction sched as [|c r IH]; intros s s' L H; cbn [urun] in H; [injection H as <-; exact L|].
  destruct (ustep s c) as [s1|] eqn:E; [|discriminate]. eapply IH; [|exact H]. eapply step_locks; eauto.
Qed.
Lemma init_locks g gc progs : locks (uinit (V:=V) g gc progs).
Proof.
  intros i t H. cbn in H. rewrite nth_error_map in H. destruct (nth_error progs i); [|discriminate]. injection H as <-.
  unfold okth, owner. cbn. repeat split; auto; intros; discriminate.
Qed.
End L.
