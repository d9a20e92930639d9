(** Proofs about the unbuffered channel with one sender and one receiver. *)
From Coq Require Import List Arith Bool Lia.
From Verif Require Import ChanModel ChanSpec ChanUModel.
Import ListNotations.

Ltac kill p R := let o := fresh "o" in let r := fresh "r" in let w := fresh "w" in
  destruct p as [|o|o|o|w|w|o|o|w| |w|o r|o r|o|o| |]; try discriminate R; try (destruct o as [w| |]; try discriminate R); try (destruct r; try discriminate R).

Section P.
Context {V : Type}.
Implicit Types (p : upc V).

Definition okS p : bool := match p with
  | UIdle | UMu (Push _) | USide (Push _) | UBody (Push _) | USig _ | UWait _ | UAsleep (Push _) | UWoken (Push _) | UBack _ | UOut1 (Push _) ROk | UOut2 (Push _) ROk => true
  | _ => false end.
Definition okR p : bool := match p with
  | UIdle | UMu Pop | USide Pop | UBody Pop | UAsleep Pop | UWoken Pop | UTake | URsig _ | UOut1 Pop (RVal _) | UOut2 Pop (RVal _) => true
  | _ => false end.
Definition hmu p : bool := match p with USide _ | UBody _ | USig _ | UWait _ | UBack _ | UTake | URsig _ | UOut1 _ _ => true | _ => false end.
Definition hside p : bool := match p with UBody _ | USig _ | UWait _ | UAsleep _ | UWoken _ | UBack _ | UTake | URsig _ | UOut1 _ _ | UOut2 _ _ => true | _ => false end.
(** Is there a value in the buffer that has not been taken? *)
Definition full p0 p1 : bool := match p0 with USig _ | UWait _ => true | UAsleep _ => match p1 with URsig _ => false | _ => true end | _ => false end.
Definition rel p0 p1 : bool :=
  okS p0 && okR p1 && negb (hmu p0 && hmu p1) &&
  match p1 with
  | UTake | URsig _ => match p0 with UAsleep _ => true | _ => false end
  | UAsleep _ => match p0 with UWait _ | UAsleep _ => false | _ => true end
  | _ => true
  end.
Definition rwait p1 : nat := match p1 with UAsleep _ | UWoken _ => 1 | _ => 0 end.
Definition cur0 p : list V := match p with
  | UMu (Push v) | USide (Push v) | UBody (Push v) | USig v | UWait v | UAsleep (Push v) | UWoken (Push v) | UBack v | UOut1 (Push v) _ | UOut2 (Push v) _ => [v] | _ => [] end.
Definition sto0 p : list V := match p with
  | USig v | UWait v | UAsleep (Push v) | UWoken (Push v) | UBack v | UOut1 (Push v) _ | UOut2 (Push v) _ => [v] | _ => [] end.
Definition cur1 p : nat := match p with UIdle => 0 | _ => 1 end.
Definition tak1 p : list V := match p with URsig v | UOut1 Pop (RVal v) | UOut2 Pop (RVal v) => [v] | _ => [] end.

Record inv (vs : list V) (m : nat) (s : ust V) : Prop := INV {
  v_closed : uclosed s = false;
  v_all : exists p0 p1 done0 done1 rest k,
    uths s = [UTh (map Push rest) p0 (map (fun v => (Push v, ROk)) done0); UTh (repeat Pop k) p1 (map (fun v => (Pop, RVal v)) done1)] /\
    rel p0 p1 = true /\ umu s = (if hmu p0 then Some 0 else if hmu p1 then Some 1 else None) /\
    usend_mu s = (if hside p0 then Some 0 else None) /\ uread_mu s = (if hside p1 then Some 1 else None) /\
    usend_waiting s = (if full p0 p1 then 1 else 0) /\ uread_waiting s = rwait p1 /\
    vs = done0 ++ cur0 p0 ++ rest /\ m = length done1 + cur1 p1 + k /\
    stored s = done0 ++ sto0 p0 /\ taken s = done1 ++ tak1 p1 /\ stored s = taken s ++ (if full p0 p1 then [ubuf s] else []) }.

Lemma inv_init g vs m : inv vs m (uinit g false [map Push vs; repeat Pop m]).
Proof.
  constructor; [reflexivity|]. exists UIdle, UIdle, [], [], vs, m. cbn. repeat (split; [reflexivity|]). reflexivity.
Qed.

Lemma snoc_map {A B} (f : A -> B) l x : map f l ++ [f x] = map f (l ++ [x]).
Proof. rewrite map_app. reflexivity. Qed.
Lemma app_last {A} (l : list A) x y r : l ++ [x] = r ++ [y] -> l = r /\ x = y.
Proof. apply app_inj_tail. Qed.

Ltac start vs m s I := destruct I as [C (p0 & p1 & d0 & d1 & rest & k & T & R & MU & SM & RM & SW & RW & EV & EM & ES & ET & EB)];
  destruct s as [b c sw rw mu smu rmu ths sto tak]; cbn [ubuf uclosed usend_waiting uread_waiting umu usend_mu uread_mu uths stored taken] in *; subst c ths.

(** One thread's step. *)
Lemma inv_move0 vs m s j s' : inv vs m s -> umove s 0 j = Some s' -> inv vs m s'.
Proof.
  intros I E. start vs m s I. unfold umove in E. cbn [nth_error uths uat uprog uhist] in E.
  destruct p0 as [|o|o|o|v|v|o|o|v| |v|o r|o r|o|o| |]; try discriminate R; try (destruct o as [v| |]; try discriminate R); try (destruct r; try discriminate R); try discriminate E.
  all: cbn [full sto0 cur0 hmu hside] in *.
  - (* begin *) destruct rest as [|v rest]; [discriminate|]. cbn [map] in E. injection E as <-. constructor; [reflexivity|].
    exists (UMu (Push v)), p1, d0, d1, rest, k. cbn [uths uset with_ths put umu usend_mu uread_mu usend_waiting uread_waiting stored taken ubuf full sto0 cur0 hmu hside].
    split; [reflexivity|]. split; [kill p1 R; exact R|]. repeat (split; [first [assumption|reflexivity]|]). assumption.
  - (* lock mu *) destruct mu; [discriminate|]. injection E as <-. constructor; [reflexivity|].
    exists (USide (Push v)), p1, d0, d1, rest, k. cbn [uths uset with_mu put umu usend_mu uread_mu usend_waiting uread_waiting stored taken ubuf full sto0 cur0 hmu hside uprog uhist].
    destruct (hmu p1) eqn:H1; [discriminate|]. split; [reflexivity|]. split; [kill p1 R; try discriminate H1; exact R|]. repeat (split; [first [assumption|reflexivity]|]). assumption.
  - (* lock send_mu *) subst smu. cbn [side usend_mu] in E. injection E as <-. constructor; [reflexivity|].
    exists (UBody (Push v)), p1, d0, d1, rest, k. cbn [uths uset with_side with_smu put umu usend_mu uread_mu usend_waiting uread_waiting stored taken ubuf full sto0 cur0 hmu hside uprog uhist].
    split; [reflexivity|]. split; [exact R|]. repeat (split; [first [assumption|reflexivity]|]). assumption.
  - (* store *) injection E as <-. constructor; [reflexivity|]. subst sw.
    exists (USig v), p1, d0, d1, rest, k. cbn [uths uset put umu usend_mu uread_mu usend_waiting uread_waiting stored taken ubuf full sto0 cur0 hmu hside uprog uhist].
    split; [reflexivity|]. split; [exact R|]. repeat (split; [first [assumption|reflexivity]|]). rewrite app_nil_r in *. split; [congruence|]. split; [assumption|]. congruence.
  - (* signal *) subst rw. destruct (rwait p1) as [|n] eqn:W; cbn [Nat.ltb Nat.leb] in E.
    + injection E as <-. constructor; [reflexivity|].
      exists (UWait v), p1, d0, d1, rest, k. cbn [uths uset put umu usend_mu uread_mu usend_waiting uread_waiting stored taken ubuf full sto0 cur0 hmu hside uprog uhist].
      split; [reflexivity|]. split; [kill p1 R; try discriminate W; exact R|]. repeat (split; [first [assumption|reflexivity|congruence]|]). assumption.
    + change (Nat.ltb 0 (S n)) with true in E. cbv iota in E.
      assert (X : exists p1', rel (UWait v) p1' = true /\ hmu p1' = hmu p1 /\ hside p1' = hside p1 /\ rwait p1' = S n /\ cur1 p1' = cur1 p1 /\ tak1 p1' = tak1 p1 /\
         s' = USt b false sw (S n) mu smu rmu [UTh (map Push rest) (UWait v) (map (fun v => (Push v, ROk)) d0); UTh (repeat Pop k) p1' (map (fun v => (Pop, RVal v)) d1)] sto tak).
      { destruct p1 as [|o|o|o|w|w|o|o|w| |w|o r|o r|o|o| |]; try discriminate R; try discriminate W; destruct o; try discriminate R; unfold usignal in E.
        - exists (UWoken Pop). destruct j as [|[|j]]; cbn in E; try discriminate E; [|destruct j; discriminate E]. injection E as <-. cbn in W. injection W as <-. repeat (split; [reflexivity|]). reflexivity.
        - exists (UWoken Pop). cbn in W. injection W as <-. destruct j as [|[|j]]; cbn in E; [| |destruct j; cbn in E]; injection E as <-; repeat (split; [reflexivity|]); reflexivity. }
      destruct X as (p1' & R' & X1 & X2 & X3 & X4 & X5 & ->). constructor; [reflexivity|]. exists (UWait v), p1', d0, d1, rest, k. rewrite X1, X2, X3, X4, X5.
      cbn [uths uset put umu usend_mu uread_mu usend_waiting uread_waiting stored taken ubuf full sto0 cur0 hmu hside uprog uhist]. repeat (split; [first [assumption|reflexivity]|]). assumption.
  - (* wait *) injection E as <-. constructor; [reflexivity|].
    exists (UAsleep (Push v)), p1, d0, d1, rest, k. cbn [uths uset with_mu put umu usend_mu uread_mu usend_waiting uread_waiting stored taken ubuf full sto0 cur0 hmu hside uprog uhist].
    assert (H1 : hmu p1 = false) by (kill p1 R; reflexivity). rewrite H1.
    assert (H2 : match p1 with URsig _ => false | _ => true end = true) by (kill p1 R; reflexivity). rewrite H2.
    split; [reflexivity|]. split; [kill p1 R; try discriminate H1; exact R|]. repeat (split; [first [assumption|reflexivity]|]). assumption.
  - (* woken *) destruct mu; [discriminate|]. injection E as <-. constructor; [reflexivity|].
    exists (UBack v), p1, d0, d1, rest, k. cbn [uths uset with_mu put umu usend_mu uread_mu usend_waiting uread_waiting stored taken ubuf full sto0 cur0 hmu hside uprog uhist].
    destruct (hmu p1) eqn:H1; [discriminate|]. split; [reflexivity|]. split; [kill p1 R; try discriminate H1; exact R|]. repeat (split; [first [assumption|reflexivity]|]). assumption.
  - (* back *) injection E as <-. constructor; [reflexivity|].
    exists (UOut1 (Push v) ROk), p1, d0, d1, rest, k. cbn [uths uset put umu usend_mu uread_mu usend_waiting uread_waiting stored taken ubuf full sto0 cur0 hmu hside uprog uhist].
    split; [reflexivity|]. split; [exact R|]. repeat (split; [first [assumption|reflexivity]|]). assumption.
  - (* unlock mu *) injection E as <-. constructor; [reflexivity|].
    exists (UOut2 (Push v) ROk), p1, d0, d1, rest, k. cbn [uths uset with_mu put umu usend_mu uread_mu usend_waiting uread_waiting stored taken ubuf full sto0 cur0 hmu hside uprog uhist].
    assert (H1 : hmu p1 = false) by (kill p1 R; reflexivity). rewrite H1.
    split; [reflexivity|]. split; [kill p1 R; try discriminate H1; exact R|]. repeat (split; [first [assumption|reflexivity]|]). assumption.
  - (* unlock send_mu, return *) injection E as <-. constructor; [reflexivity|].
    exists UIdle, p1, (d0 ++ [v]), d1, rest, k. cbn [uths ureturn with_ths with_side with_smu put umu usend_mu uread_mu usend_waiting uread_waiting stored taken ubuf full sto0 cur0 hmu hside uprog uhist].
    split; [rewrite snoc_map with (f := fun v => (Push v, ROk)); reflexivity|]. split; [exact R|]. repeat (split; [first [assumption|reflexivity]|]).
    cbn [app] in *. rewrite app_nil_r, <- app_assoc. cbn [app]. repeat (split; [first [assumption|reflexivity]|]). assumption.
Qed.

Lemma inv_move1 vs m s j s' : inv vs m s -> umove s 1 j = Some s' -> inv vs m s'.
Proof.
  intros I E. start vs m s I. unfold umove in E. cbn [nth_error uths uat uprog uhist] in E.
  assert (OK : okR p1 = true) by (unfold rel in R; rewrite !andb_true_iff in R; tauto).
  destruct p1 as [|o|o|o|v|v|o|o|v| |v|o r|o r|o|o| |]; try discriminate OK;
    try (destruct o as [v| |]; try discriminate OK); try (destruct r; try discriminate OK); try discriminate E.
  all: cbn [tak1 cur1 hmu hside rwait] in *.
  - (* begin *) destruct k as [|k]; [discriminate|]. cbn [repeat] in E. injection E as <-. constructor; [reflexivity|].
    exists p0, (UMu Pop), d0, d1, rest, k. cbn [uths with_ths put umu usend_mu uread_mu usend_waiting uread_waiting stored taken ubuf tak1 cur1 hmu hside rwait].
    kill p0 R; cbn [full] in *; repeat (split; [first [assumption|reflexivity|lia]|]); assumption.
  - (* lock mu *) destruct mu; [discriminate|]. injection E as <-. constructor; [reflexivity|].
    exists p0, (USide Pop), d0, d1, rest, k. cbn [uths uset with_mu put umu usend_mu uread_mu usend_waiting uread_waiting stored taken ubuf tak1 cur1 hmu hside rwait uprog uhist].
    kill p0 R; try discriminate MU; cbn [full] in *; repeat (split; [first [assumption|reflexivity|lia]|]); assumption.
  - (* lock read_mu *) subst rmu. cbn [side uread_mu] in E. injection E as <-. constructor; [reflexivity|].
    exists p0, (UBody Pop), d0, d1, rest, k. cbn [uths uset with_side with_rmu put umu usend_mu uread_mu usend_waiting uread_waiting stored taken ubuf tak1 cur1 hmu hside rwait uprog uhist].
    kill p0 R; cbn [full] in *; repeat (split; [first [assumption|reflexivity|lia]|]); assumption.
  - (* the loop *) cbn [negb andb uclosed usend_waiting] in E. subst sw. destruct (full p0 (UBody Pop)) eqn:F; cbn [Nat.eqb] in E; injection E as <-; constructor; try reflexivity.
    + exists p0, UTake, d0, d1, rest, k. cbn [uths uset put umu usend_mu uread_mu usend_waiting uread_waiting stored taken ubuf tak1 cur1 hmu hside rwait uprog uhist].
      kill p0 R; try discriminate F; cbn [full] in *; repeat (split; [first [assumption|reflexivity|lia]|]); assumption.
    + exists p0, (UAsleep Pop), d0, d1, rest, k. cbn [uths uset with_mu with_waiting put umu usend_mu uread_mu usend_waiting uread_waiting stored taken ubuf tak1 cur1 hmu hside rwait uprog uhist].
      subst rw. kill p0 R; try discriminate F; cbn [full hmu] in *; repeat (split; [first [assumption|reflexivity|lia]|]); assumption.
  - (* woken *) destruct mu; [discriminate|]. injection E as <-. constructor; [reflexivity|]. subst rw.
    exists p0, (UBody Pop), d0, d1, rest, k. cbn [uths uset with_mu with_waiting put umu usend_mu uread_mu usend_waiting uread_waiting stored taken ubuf tak1 cur1 hmu hside rwait uprog uhist].
    kill p0 R; try discriminate MU; cbn [full] in *; repeat (split; [first [assumption|reflexivity|lia]|]); assumption.
  - (* take *) injection E as <-. constructor; [reflexivity|].
    exists p0, (URsig b), d0, d1, rest, k. cbn [uths uset put umu usend_mu uread_mu usend_waiting uread_waiting stored taken ubuf tak1 cur1 hmu hside rwait uprog uhist].
    kill p0 R. cbn [full] in *. subst sw. rewrite app_nil_r in *. repeat (split; [first [assumption|reflexivity|lia|congruence]|]). congruence.
  - (* signal *) unfold usignal in E. kill p0 R. cbn [full hmu hside cur0 sto0] in *.
    assert (X : s' = USt b false sw rw mu smu rmu [UTh (map Push rest) (UWoken (Push w)) (map (fun v => (Push v, ROk)) d0); UTh (repeat Pop k) (UOut1 Pop (RVal v)) (map (fun v => (Pop, RVal v)) d1)] sto tak).
    { destruct j as [|[|j]]; cbn in E; try discriminate E; [|destruct j; discriminate E]. injection E as <-. reflexivity. }
    subst s'. constructor; [reflexivity|]. exists (UWoken (Push w)), (UOut1 Pop (RVal v)), d0, d1, rest, k.
    cbn [uths umu usend_mu uread_mu usend_waiting uread_waiting stored taken ubuf tak1 cur1 hmu hside rwait full cur0 sto0]. repeat (split; [first [assumption|reflexivity|lia]|]); assumption.
  - (* unlock mu *) injection E as <-. constructor; [reflexivity|].
    exists p0, (UOut2 Pop (RVal v)), d0, d1, rest, k. cbn [uths uset with_mu put umu usend_mu uread_mu usend_waiting uread_waiting stored taken ubuf tak1 cur1 hmu hside rwait uprog uhist].
    kill p0 R; cbn [full hmu] in *; repeat (split; [first [assumption|reflexivity|lia]|]); assumption.
  - (* unlock read_mu, return *) injection E as <-. constructor; [reflexivity|].
    exists p0, UIdle, d0, (d1 ++ [v]), rest, k. cbn [uths ureturn with_ths with_side with_rmu put umu usend_mu uread_mu usend_waiting uread_waiting stored taken ubuf tak1 cur1 hmu hside rwait uprog uhist].
    split; [rewrite snoc_map with (f := fun v => (Pop, RVal v)); reflexivity|]. rewrite app_nil_r, app_length. cbn [length].
    kill p0 R; cbn [full hmu] in *; repeat (split; [first [assumption|reflexivity|lia]|]); assumption.
Qed.

Lemma inv_spur1 vs m s s' : inv vs m s -> ustep s (Spurious 1) = Some s' -> inv vs m s'.
Proof.
  intros I E. start vs m s I. cbn [ustep nth_error uths uat] in E.
  assert (OK : okR p1 = true) by (unfold rel in R; rewrite !andb_true_iff in R; tauto).
  destruct p1 as [|o|o|o|v|v|o|o|v| |v|o r|o r|o|o| |]; try discriminate E; try discriminate OK; try (destruct o as [v| |]; try discriminate OK).
  injection E as <-. constructor; [reflexivity|]. exists p0, (UWoken Pop), d0, d1, rest, k. cbn [uths with_ths put umu usend_mu uread_mu usend_waiting uread_waiting stored taken ubuf tak1 cur1 hmu hside rwait uwake uat uprog uhist] in *.
  kill p0 R; cbn [full hmu] in *; repeat (split; [first [assumption|reflexivity|lia]|]); assumption.
Qed.

Lemma inv_step vs m s c s' : inv vs m s -> c <> Spurious 0 -> ustep s c = Some s' -> inv vs m s'.
Proof.
  intros I N E. assert (L : length (uths s) = 2) by (destruct I as [_ (p0 & p1 & d0 & d1 & rest & k & T & _)]; rewrite T; reflexivity).
  destruct c as [i j|i].
  - destruct i as [|[|i]]; [eapply inv_move0; eauto|eapply inv_move1; eauto|]. exfalso. cbn [ustep] in E. unfold umove in E.
    assert (X : nth_error (uths s) (S (S i)) = None) by (apply nth_error_None; lia). rewrite X in E. discriminate.
  - destruct i as [|[|i]]; [congruence|eapply inv_spur1; eauto|]. exfalso. cbn [ustep] in E.
    assert (X : nth_error (uths s) (S (S i)) = None) by (apply nth_error_None; lia). rewrite X in E. discriminate.
Qed.
Lemma inv_run vs m : forall sched s s', inv vs m s -> ~ In (Spurious 0) sched -> urun s sched = Some s' -> inv vs m s'.
Proof.
  induction sched as [|c sched IH]; intros s s' I N E; cbn [urun] in E; [injection E as <-; exact I|].
  destruct (ustep s c) as [s1|] eqn:Q; [|discriminate]. eapply IH; [|intros X; apply N; right; exact X|exact E]. eapply inv_step; [exact I| |exact Q]. intros ->. apply N. left. reflexivity.
Qed.

(** Progress. *)
Lemma progress vs m s : inv vs m s -> (exists i j s', umove s i j = Some s') \/
  exists t0 t1, uths s = [t0; t1] /\ (uat t0 = UIdle /\ uprog t0 = [] \/ uat t1 = UIdle /\ uprog t1 = []).
Proof.
  intros I. start vs m s I.
  Local Ltac go i j := left; exists i, j; eexists; unfold umove; cbn [nth_error uths uat uprog uhist umu usend_mu uread_mu side usend_waiting uread_waiting uclosed negb andb]; reflexivity.
  cbn [uths].
  destruct p0 as [|o|o|o|v|v|o|o|v| |v|o r|o r|o|o| |]; try discriminate R; try (destruct o as [v| |]; try discriminate R); try (destruct r; try discriminate R); subst; cbn [hmu hside full rwait] in *.
  - destruct rest as [|x rest]; [right; eexists; eexists; split; [reflexivity|left; split; reflexivity]|]. go 0 0.
  - destruct p1 as [|o|o|o|w|w|o|o|w| |w|o r|o r|o|o| |]; try discriminate R; try (destruct o as [w| |]; try discriminate R); try (destruct r; try discriminate R); cbn [hmu hside full rwait] in *.
    + go 0 0.
    + go 0 0.
    + go 1 0.
    + left. exists 1, 0. eexists. unfold umove. cbn. reflexivity.
    + go 0 0.
    + go 0 0.
    + left. exists 1, 0. eexists. unfold umove. cbn. reflexivity.
    + go 0 0.
  - go 0 0.
  - go 0 0.
  - destruct p1 as [|o|o|o|w|w|o|o|w| |w|o r|o r|o|o| |]; try discriminate R; try (destruct o as [w| |]; try discriminate R); try (destruct r; try discriminate R); cbn [hmu hside full rwait] in *;
      left; exists 0, 1; eexists; unfold umove; cbn; reflexivity.
  - go 0 0.
  - destruct p1 as [|o|o|o|w|w|o|o|w| |w|o r|o r|o|o| |]; try discriminate R; try (destruct o as [w| |]; try discriminate R); try (destruct r; try discriminate R); cbn [hmu hside full rwait] in *.
    + destruct k as [|k]; [right; eexists; eexists; split; [reflexivity|right; split; reflexivity]|]. left. exists 1, 0. eexists. unfold umove. cbn. reflexivity.
    + go 1 0.
    + go 1 0.
    + left. exists 1, 0. eexists. unfold umove. cbn. reflexivity.
    + go 1 0.
    + left. exists 1, 0. eexists. unfold umove. cbn. reflexivity.
    + left. exists 1, 0. eexists. unfold umove. cbn. reflexivity.
    + go 1 0.
    + go 1 0.
  - destruct p1 as [|o|o|o|w|w|o|o|w| |w|o r|o r|o|o| |]; try discriminate R; try (destruct o as [w| |]; try discriminate R); try (destruct r; try discriminate R); cbn [hmu hside full rwait] in *.
    + go 0 0.
    + go 0 0.
    + go 1 0.
    + left. exists 1, 0. eexists. unfold umove. cbn. reflexivity.
    + go 0 0.
    + go 0 0.
    + go 1 0.
    + go 0 0.
  - go 0 0.
  - go 0 0.
  - go 0 0.
Qed.
(** Every step but a spurious wake-up uses up some of a finite amount of work. *)
Definition wt p : nat := match p with
  | UIdle => 0 | UMu (Push _) => 12 | USide (Push _) => 11 | UBody (Push _) => 10 | USig _ => 9 | UWait _ => 6 | UAsleep (Push _) => 5 | UWoken (Push _) => 4 | UBack _ => 3
  | UOut1 (Push _) _ => 2 | UOut2 (Push _) _ => 1
  | UMu _ => 9 | USide _ => 8 | UBody _ => 7 | UAsleep _ => 6 | UWoken _ => 8 | UTake => 6 | URsig _ => 5 | UOut1 _ _ => 3 | UOut2 _ _ => 2 | _ => 0 end.
Definition work (s : ust V) : nat := match uths s with [t0; t1] => wt (uat t0) + 13 * length (uprog t0) + wt (uat t1) + 10 * length (uprog t1) | _ => 0 end.
Lemma work_move vs m s i j s' : inv vs m s -> umove s i j = Some s' -> work s' < work s.
Proof.
  intros I E. start vs m s I. assert (OK : okR p1 = true) by (unfold rel in R; rewrite !andb_true_iff in R; tauto).
  unfold umove in E. destruct i as [|[|i]]; cbn [nth_error uths uat uprog uhist] in E; [| |destruct i; discriminate E].
  - kill p0 R; try discriminate E.
    + destruct rest as [|v rest]; [discriminate|]. cbn [map] in E. injection E as <-. unfold work. cbn [uths with_ths put uat uprog wt length map]. lia.
    + destruct mu; [discriminate|]. injection E as <-. unfold work. cbn [uths uset with_mu put uat uprog wt]. lia.
    + destruct smu; cbn [side usend_mu] in E; [discriminate|]. injection E as <-. unfold work. cbn [uths uset with_side with_smu put uat uprog wt]. lia.
    + injection E as <-. unfold work. cbn [uths uset put uat uprog wt]. lia.
    + cbn [uread_waiting] in E. destruct (Nat.ltb 0 rw); [|injection E as <-; unfold work; cbn [uths uset put uat uprog wt]; lia].
      unfold usignal in E. kill p1 OK; destruct j as [|[|j]]; cbn in E; try discriminate E; try (destruct j; cbn in E; try discriminate E); injection E as <-; unfold work; cbn [uths uset with_ths put uat uprog wt]; lia.
    + injection E as <-. unfold work. cbn [uths uset with_mu put uat uprog wt]. lia.
    + destruct mu; [discriminate|]. injection E as <-. unfold work. cbn [uths uset with_mu put uat uprog wt]. lia.
    + injection E as <-. unfold work. cbn [uths uset put uat uprog wt uclosed]. lia.
    + injection E as <-. unfold work. cbn [uths uset with_mu put uat uprog wt]. lia.
    + injection E as <-. unfold work. cbn [uths ureturn with_side with_smu with_ths put uat uprog wt]. lia.
  - kill p1 OK; try discriminate E.
    + destruct k as [|k]; [discriminate|]. cbn [repeat] in E. injection E as <-. unfold work. cbn [uths with_ths put uat uprog wt length repeat]. lia.
    + destruct mu; [discriminate|]. injection E as <-. unfold work. cbn [uths uset with_mu put uat uprog wt]. lia.
    + destruct rmu; cbn [side uread_mu] in E; [discriminate|]. injection E as <-. unfold work. cbn [uths uset with_side with_rmu put uat uprog wt]. lia.
    + cbn [negb andb uclosed usend_waiting] in E. destruct (Nat.eqb sw 0); injection E as <-; unfold work; cbn [uths uset with_mu with_waiting put uat uprog wt]; lia.
    + destruct mu; [discriminate|]. injection E as <-. unfold work. cbn [uths uset with_mu with_waiting put uat uprog wt]. lia.
    + injection E as <-. unfold work. cbn [uths uset put uat uprog wt]. lia.
    + unfold usignal in E. kill p0 R. destruct j as [|[|j]]; cbn in E; try discriminate E; try (destruct j; discriminate E). injection E as <-. unfold work. cbn [uths uset with_ths put uat uprog wt]. lia.
    + injection E as <-. unfold work. cbn [uths uset with_mu put uat uprog wt]. lia.
    + injection E as <-. unfold work. cbn [uths ureturn with_side with_rmu with_ths put uat uprog wt]. lia.
Qed.
Lemma run_bound vs m : forall sched s s', inv vs m s -> ~ In (Spurious 0) sched -> urun s sched = Some s' -> length sched + work s' <= work s + 3 * spurious sched.
Proof.
  induction sched as [|c sched IH]; intros s s' I N E; cbn [urun] in E; [injection E as <-; cbn; lia|].
  destruct (ustep s c) as [s1|] eqn:Q; [|discriminate].
  assert (I1 : inv vs m s1) by (eapply inv_step; [exact I| |exact Q]; intros ->; apply N; left; reflexivity).
  specialize (IH s1 s' I1 (fun X => N (or_intror X)) E). unfold spurious in *. destruct c as [i j|i]; cbn [filter length].
  - cbn [ustep] in Q. pose proof (work_move vs m s i j s1 I Q). lia.
  - assert (work s1 <= work s + 2); [|lia]. start vs m s I. cbn [ustep] in Q. destruct i as [|[|i]]; [exfalso; apply N; left; reflexivity| |destruct i; discriminate Q].
    cbn [nth_error uths uat] in Q. destruct p1; try discriminate Q. injection Q as <-. unfold work, uwake. cbn [uths with_ths put uat uprog]. destruct o; cbn [wt]; lia.
Qed.
End P.
