From Coq Require Import ZArith Bool List Lia ZifyBool.
From Verif Require Import Mach LexModel LexSpec LexProofs LexProofs4 LexNumSpec LexNumProofs.
Import ListNotations.
Open Scope Z_scope.

Lemma app_nn (A : Type) (a b : list A) : a <> [] -> a ++ b <> []. Proof. destruct a; [congruence|discriminate]. Qed.
Lemma last_app (a b : list Z) : b <> [] -> last (a ++ b) 0 = last b 0.
Proof. intros Hb. induction a as [|x a IH]; [reflexivity|]. cbn [app]. destruct (a ++ b) eqn:E; [destruct a; [cbn in E; congruence|discriminate]|]. exact IH. Qed.
Lemma rev_last (s p : list Z) : s <> [] -> exists q, rev s ++ p = last s 0 :: q.
Proof.
  intros H. destruct (exists_last H) as (a & x & ->). rewrite rev_app_distr, last_app by discriminate. cbn [rev app last]. eauto.
Qed.
Lemma stops_pu P r : stops (pu P) r -> stops P r.
Proof. intros (x & r' & -> & H). exists x, r'. split; [reflexivity|]. unfold pu in H. destruct (P x); [discriminate|reflexivity]. Qed.

Definition agrees (P : Z -> bool) (Q : Z -> Prop) : Prop := cls P /\ (forall c, P c = true <-> Q c) /\ ~ Q 95 /\ (forall c, Q c -> word_char c).
Lemma ag_dec : agrees is_digit dec_dig. Proof. split; [auto|]. split; [exact dec_iff|]. unfold dec_dig, word_char. split; [lia|]. intros; lia. Qed.
Lemma ag_hex : agrees is_hex hex_dig. Proof. split; [auto|]. split; [exact hex_iff|]. unfold hex_dig, word_char. split; [lia|]. intros; lia. Qed.
Lemma ag_oct : agrees is_oct oct_dig. Proof. split; [auto|]. split; [exact oct_iff|]. unfold oct_dig, word_char. split; [lia|]. intros; lia. Qed.
Lemma ag_bin : agrees is_bin bin_dig. Proof. split; [auto|]. split; [exact bin_iff|]. unfold bin_dig, word_char. split; [lia|]. intros; lia. Qed.
#[export] Hint Resolve ag_dec ag_hex ag_oct ag_bin : core.
Lemma ag_pu P Q c : agrees P Q -> pu P c = true <-> (Q c \/ c = 95).
Proof. intros (_ & H & _). unfold pu, is_us. rewrite orb_true_iff, H, Z.eqb_eq. tauto. Qed.
Lemma ag_all P Q s : agrees P Q -> Forall (fun c => pu P c = true) s <-> Forall (fun c => Q c \/ c = 95) s.
Proof. intros H. split; intros F; eapply Forall_impl; try exact F; intros c; apply (ag_pu P Q c H). Qed.
Lemma spaced_intro P Q d s : agrees P Q -> P d = true -> Forall (fun c => pu P c = true) s -> nodouble s -> spaced Q (d :: s).
Proof.
  intros H Hd F N. pose proof H as (_ & Hi & H95 & _). split; [exists d, s; split; [reflexivity|apply Hi; exact Hd]|]. split.
  - constructor; [left; apply Hi; exact Hd|]. apply (ag_all P Q s H). exact F.
  - apply nodouble_cons. split; [exact N|]. intros [-> _]. apply Hi in Hd. contradiction.
Qed.
Lemma spaced_elim P Q s : agrees P Q -> spaced Q s -> exists d t, s = d :: t /\ P d = true /\ d <> 95 /\ Forall (fun c => pu P c = true) t /\ nodouble t /\ Forall (fun c => pu P c = true) s /\ nodouble s.
Proof.
  intros H ((d & t & -> & Hd) & F & N). pose proof H as (_ & Hi & H95 & _). apply (ag_all P Q _ H) in F. inversion F; subst. exists d, t. split; [reflexivity|]. split; [apply Hi; exact Hd|].
  split; [intros ->; contradiction|]. split; [assumption|]. split; [apply (nodouble_cons d t); exact N|]. auto.
Qed.

(** ** After the dot *)
Definition frac_dec (fuel : nat) (c : cursor) : Res (bool * cursor) := a <- peek c ;; if a =? 95 then Ok (false, c) else digits_loop fuel is_digit c.
Definition frac_hex (fuel : nat) (c : cursor) : Res (bool * cursor) :=
  a <- peek c ;; if a =? 95 then Ok (false, c) else c <- (if is_hex a then next c else Ok c) ;; digits_loop fuel is_hex c.
Definition fracs (P : Z -> bool) (Q : Z -> Prop) (fuel : nat) (f : cursor -> Res (bool * cursor)) : Prop :=
  (forall p l k d, live l -> f (Cur p l k) = Ok (true, d) -> exists s r, l = s ++ r /\ (s = [] \/ spaced Q s) /\ stops (pu P) r /\ d = Cur (rev s ++ p) r k /\ live r) /\
  (forall p s r k, (s = [] \/ spaced Q s) -> stops (pu P) r -> (length s < fuel)%nat -> f (Cur p (s ++ r) k) = Ok (true, Cur (rev s ++ p) r k)).
Lemma fracs_dec fuel : fracs is_digit dec_dig fuel (frac_dec fuel).
Proof.
  split.
  - intros p l k d L H. unfold frac_dec in H. destruct l as [|a l]; [destruct (live_nil L)|]. rewrite peek_cons in H. cbn [bind] in H. destruct (Z.eqb_spec a 95) as [|Ha]; [discriminate|].
    apply digits_inv in H; [|auto|exact L]. destruct H as (s & r & E & F & Hr & N & -> & Lr). exists s, r. split; [exact E|]. split; [|auto]. destruct s as [|x s]; [auto|]. right.
    cbn [app] in E. injection E as <- _. inversion F as [|? ? Hx F']; subst. apply (spaced_intro is_digit); [auto| |exact F'|apply (nodouble_cons a s); exact N]. unfold pu, is_us in Hx. lia.
  - intros p s r k Hs Hr Hf. unfold frac_dec. destruct Hs as [-> |Hs].
    + pose proof (digits_ok is_digit cls_dec [] r p k fuel Hf ltac:(constructor) Hr nodouble_nil) as H. destruct Hr as (x & r' & -> & Hx). cbn [app] in *. rewrite peek_cons. cbn [bind].
      unfold pu, is_us in Hx. replace (x =? 95) with false by lia. exact H.
    + destruct (spaced_elim is_digit dec_dig s ag_dec Hs) as (d & t & -> & Hd & Hn & F & N & F' & N'). cbn [app]. rewrite peek_cons. cbn [bind]. replace (d =? 95) with false by lia.
      apply (digits_ok is_digit cls_dec (d :: t)); assumption.
Qed.
Lemma fracs_hex fuel : fracs is_hex hex_dig fuel (frac_hex fuel).
Proof.
  split.
  - intros p l k d L H. unfold frac_hex in H. destruct l as [|a l]; [destruct (live_nil L)|]. rewrite peek_cons in H. cbn [bind] in H. destruct (Z.eqb_spec a 95) as [|Ha]; [discriminate|].
    destruct (is_hex a) eqn:Ea.
    + rewrite next_same in H by (apply (cls10 is_hex a cls_hex Ea)). cbn [bind] in H. destruct (live_cons a l L) as [_ Ll]; [intros ->; discriminate|].
      apply digits_inv in H; [|auto|exact Ll]. destruct H as (s & r & E & F & Hr & N & -> & Lr). exists (a :: s), r. split; [cbn [app]; rewrite E; reflexivity|].
      split; [right; apply (spaced_intro is_hex); auto|]. split; [exact Hr|]. split; [cbn [rev]; rewrite <- app_assoc; reflexivity|exact Lr].
    + cbn [bind] in H. apply digits_inv in H; [|auto|exact L]. destruct H as (s & r & E & F & Hr & N & -> & Lr). exists s, r. split; [exact E|]. split; [|auto]. destruct s as [|x s]; [auto|]. right.
      exfalso. cbn [app] in E. injection E as <- _. inversion F as [|? ? Hx F']; subst. unfold pu, is_us in Hx. lia.
  - intros p s r k Hs Hr Hf. unfold frac_hex. destruct Hs as [-> |Hs].
    + pose proof (digits_ok is_hex cls_hex [] r p k fuel Hf ltac:(constructor) Hr nodouble_nil) as H. destruct Hr as (x & r' & -> & Hx). cbn [app] in *. rewrite peek_cons. cbn [bind].
      unfold pu, is_us in Hx. replace (x =? 95) with false by lia. replace (is_hex x) with false by lia. exact H.
    + destruct (spaced_elim is_hex hex_dig s ag_hex Hs) as (d & t & -> & Hd & Hn & F & N & F' & N'). cbn [app]. rewrite peek_cons. cbn [bind]. replace (d =? 95) with false by lia.
      rewrite Hd, next_same by (apply (cls10 is_hex d cls_hex Hd)). cbn [bind]. cbn [length] in Hf. rewrite digits_ok; [cbn [rev]; rewrite <- app_assoc; reflexivity|auto|lia|assumption|assumption|assumption].
Qed.

(** ** After the integral digits *)
Definition num_rest (fuel : nat) (f : cursor -> Res (bool * cursor)) (mark : Z) (c : cursor) : Res scan :=
  a <- peek c ;;
  dot <- (if a =? 46 then (b <- peekn c 1 ;; Ok (negb (b =? 46))) else Ok false) ;;
  '(ok, c) <- (if dot : bool then c <- next c ;; f c else Ok (true, c)) ;;
  if negb ok then Ok (Err c) else
  a <- peek c ;;
  if (a =? mark) || (a =? mark - 32) then
    '(ok, c) <- scan_exponent fuel c ;; if ok then finish_number fuel true c else Ok (Err c)
  else finish_number fuel dot c.
Lemma scan_dec_split fuel c : scan_dec fuel c = ('(ok, c) <- digits_loop fuel is_digit c ;; if negb ok then Ok (Err c) else num_rest fuel (frac_dec fuel) 101 c).
Proof. reflexivity. Qed.
Lemma scan_hex_split fuel c : scan_hex fuel c = (a <- peek c ;; if negb (is_hex a) then Ok (Err c) else c <- next c ;; '(ok, c) <- digits_loop fuel is_hex c ;; if negb ok then Ok (Err c) else num_rest fuel (frac_hex fuel) 112 c).
Proof. reflexivity. Qed.

Lemma finish_inv2 fuel b i p l k t d : i <> [] -> live l -> finish_number fuel b (Cur (rev i ++ p) l k) = Ok (Tok t d) ->
  last i 0 <> 95 /\ exists (b' : bool) sf r, t = (if b' then TReal else TInteger) /\ l = sf ++ r /\ suffix b b' sf /\ d = Cur (rev sf ++ rev i ++ p) r k /\ live r /\ wstop r.
Proof.
  intros Hi L H. unfold finish_number in H. destruct (rev_last i p Hi) as (q & Eq). rewrite Eq in *.
  destruct (number_suffix _ _ _) as [[[ok b'] c]| |] eqn:E in H; cbn [bind] in H; try discriminate. destruct ok; [|discriminate]. injection H as <- <-.
  apply suffix_inv in E; [|exact L]. destruct E as (Hq & s & r & E & Hs & -> & Lr & Hw). split; [exact Hq|]. exists b', s, r. repeat (split; [assumption || reflexivity|]). exact Hw.
Qed.
Lemma finish_ok2 fuel b b' i p sf r k : i <> [] -> last i 0 <> 95 -> suffix b b' sf -> live r -> wstop r -> (length sf < fuel)%nat ->
  finish_number fuel b (Cur (rev i ++ p) (sf ++ r) k) = Ok (Tok (if b' then TReal else TInteger) (Cur (rev sf ++ rev i ++ p) r k)).
Proof.
  intros Hi Hl Hs L Hw Hf. unfold finish_number. destruct (rev_last i p Hi) as (q & Eq). rewrite Eq. rewrite (suffix_ok fuel b b') by assumption. reflexivity.
Qed.

Lemma power_nn mark s : power mark s -> s <> []. Proof. intros [c sg ds _ _ _ _]. discriminate. Qed.
Lemma rest_inv P Q fuel f mark i p l k t d : agrees P Q -> fracs P Q fuel f -> 33 <= mark - 32 -> i <> [] -> live l -> stops (pu P) l ->
  num_rest fuel f mark (Cur (rev i ++ p) l k) = Ok (Tok t d) ->
  exists fr ex sf dt e (b : bool) r, l = fr ++ ex ++ sf ++ r /\ fraction Q dt fr /\ exponent mark e ex /\ last (i ++ fr ++ ex) 0 <> 95 /\ suffix (dt || e) b sf /\ t = (if b then TReal else TInteger) /\
    d = Cur (rev (i ++ fr ++ ex ++ sf) ++ p) r k /\ live r /\ wstop r /\ (e = true \/ ~ Q (hd 0 sf)).
Proof.
  intros HA [Hfi _] Hm Hi L Hst H. unfold num_rest in H. destruct l as [|a l]; [destruct (live_nil L)|]. rewrite peek_cons in H. cbn [bind] in H.
  assert (X : exists dt, (if a =? 46 then b <- peekn (Cur (rev i ++ p) (a :: l) k) 1;; Ok (negb (b =? 46)) else Ok false) = Ok dt /\ (dt = true -> a = 46)).
  { destruct (Z.eqb_spec a 46) as [->|]; [|exists false; split; [reflexivity|discriminate]]. destruct (live_cons 46 l L ltac:(lia)) as [_ Ll]. destruct l as [|b l]; [destruct (live_nil Ll)|].
    rewrite peekn_cons1. cbn [bind]. eauto. }
  destruct X as (dt & Ed & Hd). rewrite Ed in H. cbn [bind] in H. clear Ed.
  assert (Y : exists fr r0, a :: l = fr ++ r0 /\ fraction Q dt fr /\ stops (pu P) r0 /\ live r0 /\
     (a <- peek (Cur (rev (i ++ fr) ++ p) r0 k);; if (a =? mark) || (a =? mark - 32) then '(ok, c) <- scan_exponent fuel (Cur (rev (i ++ fr) ++ p) r0 k);; if ok then finish_number fuel true c else Ok (Err c)
       else finish_number fuel dt (Cur (rev (i ++ fr) ++ p) r0 k)) = Ok (Tok t d)).
  { destruct dt.
    - specialize (Hd eq_refl). subst a. rewrite next_same in H by lia. cbn [bind] in H. destruct (live_cons 46 l L ltac:(lia)) as [_ Ll].
      destruct (f _) as [[ok c]| |] eqn:Ef in H; cbn [bind] in H; try discriminate. destruct ok; [|discriminate]. cbn [negb] in H. apply Hfi in Ef; [|exact Ll].
      destruct Ef as (s & r & -> & Hs & Hr & -> & Lr). exists (46 :: s), r. split; [reflexivity|]. split; [destruct Hs as [->|Hs]; constructor; assumption|]. split; [exact Hr|]. split; [exact Lr|].
      rewrite rev_app_distr. cbn [rev]. rewrite <- !app_assoc. cbn [app]. exact H.
    - cbn [bind negb] in H. exists [], (a :: l). rewrite app_nil_r. split; [reflexivity|]. split; [constructor|]. split; [exact Hst|]. split; [exact L|]. exact H. }
  clear H. destruct Y as (fr & r0 & E & Hfr & Hs0 & L0 & H). destruct r0 as [|x r0]; [destruct (live_nil L0)|]. rewrite peek_cons in H. cbn [bind] in H.
  assert (Nn : i ++ fr <> []) by (apply app_nn; exact Hi).
  destruct ((x =? mark) || (x =? mark - 32)) eqn:Ex.
  - destruct (scan_exponent fuel _) as [[ok c]| |] eqn:Ee in H; cbn [bind] in H; try discriminate. destruct ok; [|discriminate].
    apply (exp_inv fuel mark) in Ee; [|lia|lia|lia|exact L0]. destruct Ee as (ex & r & E2 & Hp & -> & Lr & Hr). rewrite app_assoc, <- rev_app_distr in H. apply finish_inv2 in H; [|apply app_nn; exact Nn|exact Lr].
    destruct H as (Hl & b & sf & r1 & -> & -> & Hs & -> & Lr1 & Hw). exists fr, ex, sf, dt, true, b, r1. rewrite orb_true_r. split; [rewrite E, E2; reflexivity|]. split; [exact Hfr|]. split; [constructor; exact Hp|].
    rewrite <- app_assoc in Hl. split; [exact Hl|]. split; [exact Hs|]. split; [reflexivity|]. split; [|auto]. f_equal. rewrite !rev_app_distr, !app_assoc. reflexivity.
  - apply finish_inv2 in H; [|exact Nn|exact L0]. destruct H as (Hl & b & sf & r1 & -> & E2 & Hs & -> & Lr1 & Hw). exists fr, [], sf, dt, false, b, r1. rewrite orb_false_r.
    split; [rewrite E, E2; reflexivity|]. split; [exact Hfr|]. split; [constructor|]. rewrite app_nil_r. split; [exact Hl|]. split; [exact Hs|]. split; [reflexivity|].
    split; [cbn [app]; f_equal; rewrite !rev_app_distr, !app_assoc; reflexivity|]. split; [exact Lr1|]. split; [exact Hw|]. right.
    destruct HA as ((H0 & _) & Hi2 & _ & _). destruct sf as [|y sf]; cbn [hd].
    + rewrite <- Hi2, H0. discriminate.
    + cbn [app] in E2. injection E2 as <- _. destruct Hs0 as (x' & r' & E3 & Hx). injection E3 as <- _. unfold pu in Hx. rewrite <- Hi2. destruct (P x); [discriminate|congruence].
Qed.
Lemma suffix_head b b' y sf : suffix b b' (y :: sf) -> In y [108; 76; 117; 85; 105; 73; 102; 70].
Proof. inversion 1; subst; cbn; lia. Qed.
Lemma rest_ok P Q fuel f mark i p k fr ex sf dt e b r : agrees P Q -> fracs P Q fuel f -> ~ Q mark -> ~ Q (mark - 32) -> mark = 101 \/ mark = 112 -> i <> [] -> live r -> wstop r ->
  fraction Q dt fr -> exponent mark e ex -> last (i ++ fr ++ ex) 0 <> 95 -> suffix (dt || e) b sf -> (e = true \/ ~ Q (hd 0 sf)) ->
  (hd 0 r = 46 -> hd 0 (tl r) = 46 /\ dt = false) -> (length (fr ++ ex ++ sf) < fuel)%nat ->
  num_rest fuel f mark (Cur (rev i ++ p) (fr ++ ex ++ sf ++ r) k) = Ok (Tok (if b then TReal else TInteger) (Cur (rev (i ++ fr ++ ex ++ sf) ++ p) r k)).
Proof.
  intros HA [_ Hfo] Q1 Q2 Hm Hi L Hw Hfr Hex Hl Hsf Hh Hdot Hf.
  assert (Z0 : exists x r', ex ++ sf ++ r = x :: r' /\ pu P x = false /\ live (ex ++ sf ++ r) /\ ((x = mark \/ x = mark - 32) <-> e = true) /\
    (dt = true -> x <> 46) /\ (x = 46 -> hd 0 r' = 46) /\ stops is_digit (sf ++ r)).
  { destruct Hw as (x & r' & -> & Hx). cbn [hd tl] in Hdot.
    assert (Lw : forall s, Forall (fun c => src_byte c) s -> live (s ++ x :: r')).
    { intros s F. destruct L as (t & -> & Ft). exists (s ++ t). rewrite app_assoc. split; [reflexivity|]. apply Forall_app. auto. }
    assert (Bsf : Forall src_byte sf).
    { destruct Hsf as [|d Hd|c d Hc Hd|c ds Hc F|b0 c ds Hc F]; repeat constructor; try (unfold src_byte; lia); (eapply Forall_impl; [|exact F]; unfold dec_dig, src_byte; lia). }
    assert (Hd : stops is_digit (sf ++ x :: r')).
    { destruct sf as [|y sf]; [exists x, r'; split; [reflexivity|unfold is_alphanum_ in Hx; lia]|]. apply suffix_head in Hsf. exists y, (sf ++ x :: r'). split; [reflexivity|]. cbn in Hsf. unfold is_digit. lia. }
    pose proof HA as (_ & HPQ & H95 & HW).
    assert (Hpu : forall c, ~ Q c -> c <> 95 -> pu P c = false). { intros c H1 H2. apply not_true_is_false. rewrite (ag_pu P Q c HA). tauto. }
    destruct Hex as [|ex Hex].
    - destruct Hh as [|Hh]; [discriminate|]. cbn [app]. destruct sf as [|y sf].
      + exists x, r'. cbn [app] in *. split; [reflexivity|]. assert (~ word_char x) by (rewrite <- word_iff; congruence).
        split; [apply Hpu; [intros A; apply H, HW, A|unfold word_char in H; lia]|]. split; [exact L|]. split; [split; [unfold word_char in H; lia|discriminate]|]. split; [intros -> ->; destruct (Hdot eq_refl); discriminate|].
        split; [intros ->; apply Hdot; reflexivity|exact Hd].
      + exists y, (sf ++ x :: r'). split; [reflexivity|]. cbn [hd] in Hh. pose proof (suffix_head _ _ _ _ Hsf) as Hy. cbn in Hy. split; [apply Hpu; [exact Hh|lia]|]. split; [apply (Lw (y :: sf) Bsf)|].
        split; [split; [lia|discriminate]|]. split; [lia|]. split; [lia|exact Hd].
    - pose proof Hex as [c sg ds Hc Hs Hn F]. exists c, ((sg ++ ds) ++ sf ++ x :: r'). split; [reflexivity|]. split; [destruct Hc as [-> | ->]; apply Hpu; (assumption || lia)|].
      split; [rewrite app_assoc; apply Lw; apply Forall_app; split; [|exact Bsf]; constructor; [unfold src_byte; lia|]; apply Forall_app; split|].
      + destruct Hs as [<- |[<- |[<- |[]]]]; repeat constructor; unfold src_byte; lia.
      + eapply Forall_impl; [|exact F]; unfold dec_dig, src_byte; lia.
      + split; [tauto|]. split; [lia|]. split; [lia|exact Hd]. }
  destruct Z0 as (x & r0 & E & Hx & Lx & Hmk & Hd46 & Hd2 & Hsd). rewrite !app_length in Hf.
  assert (T : forall c dt', dt' = dt -> c = Cur (rev (i ++ fr) ++ p) (ex ++ sf ++ r) k ->
    (a <- peek c;; if (a =? mark) || (a =? mark - 32) then '(ok, c) <- scan_exponent fuel c;; if ok then finish_number fuel true c else Ok (Err c) else finish_number fuel dt' c) =
    Ok (Tok (if b then TReal else TInteger) (Cur (rev (i ++ fr ++ ex ++ sf) ++ p) r k))).
  { intros c dt' -> ->. rewrite E at 1. rewrite peek_cons. cbn [bind].
    assert (Lsf : live (sf ++ r)). { destruct Hex as [|ex Hex]; [exact Lx|]. apply (live_app ex); [exact Lx|]. destruct Hex as [c sg ds Hc Hs Hn F]. constructor; [lia|]. apply Forall_app. split; [destruct Hs as [<- |[<- |[<- |[]]]]; repeat constructor; lia|].
      eapply Forall_impl; [|exact F]. unfold dec_dig. lia. }
    destruct Hex as [|ex Hex].
    - replace ((x =? mark) || (x =? mark - 32)) with false by (destruct Hmk; lia). cbn [app]. rewrite orb_false_r in Hsf. rewrite app_nil_r in Hl.
      rewrite (finish_ok2 fuel dt b) by (first [apply app_nn; assumption | assumption | lia]). rewrite !rev_app_distr, !app_assoc. reflexivity.
    - replace ((x =? mark) || (x =? mark - 32)) with true by (destruct Hmk; lia). rewrite (exp_ok fuel mark) by (first [assumption|lia]). cbn [bind]. rewrite app_assoc, <- rev_app_distr. rewrite orb_true_r in Hsf.
      rewrite (finish_ok2 fuel true b); [|rewrite <- app_assoc; apply app_nn; exact Hi|rewrite <- app_assoc; exact Hl|exact Hsf|exact L|exact Hw|lia]. rewrite !rev_app_distr, !app_assoc. reflexivity. }
  unfold num_rest. destruct Hfr as [| |s Hs]; cbn [app].
  - rewrite E, peek_cons. cbn [bind]. rewrite app_nil_r in T.
    replace (if x =? 46 then b0 <- peekn (Cur (rev i ++ p) (x :: r0) k) 1;; Ok (negb (b0 =? 46)) else Ok false) with (Ok false : Res bool).
    + cbn [bind negb]. apply T; [reflexivity|rewrite E; reflexivity].
    + destruct (Z.eqb_spec x 46) as [->|]; [|reflexivity]. specialize (Hd2 eq_refl). destruct r0 as [|y r0]; [cbn in Hd2; lia|]. cbn [hd] in Hd2. subst y. reflexivity.
  - rewrite peek_cons. cbn [bind]. change (46 =? 46) with true. cbv iota. rewrite E, peekn_cons1. cbn [bind]. replace (negb (x =? 46)) with true by (specialize (Hd46 eq_refl); lia). cbn [bind].
    rewrite next_same by lia. cbn [bind]. specialize (Hfo (46 :: rev i ++ p) [] (x :: r0) k (or_introl eq_refl)). cbn [app rev] in Hfo. rewrite Hfo; [|exists x, r0; auto|cbn [length] in *; lia].
    cbn [bind negb]. apply T; [reflexivity|]. rewrite rev_app_distr, E. reflexivity.
  - rewrite peek_cons. cbn [bind]. change (46 =? 46) with true. cbv iota.
    assert (Hy : exists y w, s ++ ex ++ sf ++ r = y :: w /\ y <> 46). { pose proof Hs as ((y & w & -> & Hy) & _). exists y, (w ++ ex ++ sf ++ r). split; [reflexivity|]. intros ->. pose proof HA as (_ & _ & _ & HW). apply HW in Hy. unfold word_char in Hy. lia. }
    destruct Hy as (y & w & Ey & Hy). rewrite Ey, peekn_cons1. cbn [bind]. replace (negb (y =? 46)) with true by lia. cbn [bind]. rewrite next_same by lia. cbn [bind]. rewrite <- Ey.
    rewrite Hfo; [|right; exact Hs|exists x, r0; rewrite E; auto|cbn [length] in Hf; lia]. cbn [bind negb]. apply T; [reflexivity|]. rewrite rev_app_distr. cbn [rev]. rewrite <- !app_assoc. reflexivity.
Qed.
