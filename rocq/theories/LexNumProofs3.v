From Coq Require Import ZArith Bool List Lia ZifyBool.
From Verif Require Import Mach LexModel LexSpec LexProofs LexProofs4 LexNumSpec LexNumProofs LexNumProofs2.
Import ListNotations.
Open Scope Z_scope.

Definition kind (b : bool) : tok := if b then TReal else TInteger.
Lemma stops_0 P Q x l : agrees P Q -> live (x :: l) -> P x = true -> live l /\ x <> 10.
Proof. intros ((H0 & H10) & _) L H. split; [apply (live_cons x l L); intros ->; congruence|intros ->; congruence]. Qed.

(** ** Inversion *)
Lemma dec_inv fuel p l k t d : live l -> is_digit (hd 0 l) = true -> scan_dec fuel (Cur p l k) = Ok (Tok t d) ->
  exists b s r, number b s /\ t = kind b /\ l = s ++ r /\ d = Cur (rev s ++ p) r k /\ live r /\ wstop r.
Proof.
  intros L Hd H. rewrite scan_dec_split in H. destruct (digits_loop _ _ _) as [[ok c]| |] eqn:E in H; cbn [bind] in H; try discriminate. destruct ok; [|discriminate]. cbn [negb] in H.
  apply digits_inv in E; [|auto|exact L]. destruct E as (i & r & -> & F & Hr & N & -> & Lr). destruct i as [|x i].
  { exfalso. destruct Hr as (y & r' & -> & Hy). cbn [app hd] in Hd. unfold pu in Hy. rewrite Hd in Hy. discriminate. }
  cbn [app hd] in Hd. inversion F as [|? ? _ F']; subst. assert (Hs : spaced dec_dig (x :: i)) by (apply (spaced_intro is_digit); [auto|exact Hd|exact F'|apply (nodouble_cons x i); exact N]).
  apply (rest_inv is_digit dec_dig) in H; [|auto|apply fracs_dec|lia|discriminate|exact Lr|exact Hr]. destruct H as (fr & ex & sf & dt & e & b & r1 & -> & Hfr & Hex & Hl & Hsf & -> & -> & Lr1 & Hw & _).
  exists b, ((x :: i) ++ fr ++ ex ++ sf), r1. split; [eapply nu_dec; eauto|]. split; [reflexivity|]. split; [rewrite <- !app_assoc; reflexivity|auto].
Qed.
Lemma hex_inv fuel p l k t d : live l -> scan_hex fuel (Cur p l k) = Ok (Tok t d) ->
  exists b s r, (forall c, c = 120 \/ c = 88 -> number b (48 :: c :: s)) /\ t = kind b /\ l = s ++ r /\ d = Cur (rev s ++ p) r k /\ live r /\ wstop r.
Proof.
  intros L H. rewrite scan_hex_split in H. destruct l as [|x l]; [destruct (live_nil L)|]. rewrite peek_cons in H. cbn [bind] in H. destruct (is_hex x) eqn:Ex; [|discriminate]. cbn [negb] in H.
  destruct (stops_0 is_hex hex_dig x l ag_hex L Ex) as [Ll H10]. rewrite next_same in H by exact H10. cbn [bind] in H.
  destruct (digits_loop _ _ _) as [[ok c]| |] eqn:E in H; cbn [bind] in H; try discriminate. destruct ok; [|discriminate]. cbn [negb] in H.
  apply digits_inv in E; [|auto|exact Ll]. destruct E as (i & r & -> & F & Hr & N & -> & Lr). assert (Hs : spaced hex_dig (x :: i)) by (apply (spaced_intro is_hex); auto).
  replace (rev i ++ x :: p) with (rev (x :: i) ++ p) in H by (cbn [rev]; rewrite <- app_assoc; reflexivity).
  apply (rest_inv is_hex hex_dig) in H; [|auto|apply fracs_hex|lia|discriminate|exact Lr|exact Hr]. destruct H as (fr & ex & sf & dt & e & b & r1 & -> & Hfr & Hex & Hl & Hsf & -> & -> & Lr1 & Hw & Hh).
  exists b, ((x :: i) ++ fr ++ ex ++ sf), r1. split; [intros c Hc; eapply nu_hex; eauto; exists c; split; [lia|reflexivity]|]. split; [reflexivity|]. split; [rewrite <- !app_assoc; reflexivity|auto].
Qed.
Lemma pow2_inv P Q fuel p l k t d : agrees P Q -> live l -> scan_pow2 fuel P (Cur p l k) = Ok (Tok t d) ->
  exists i sf r, spaced Q i /\ last i 0 <> 95 /\ suffix false false sf /\ t = TInteger /\ l = i ++ sf ++ r /\ d = Cur (rev (i ++ sf) ++ p) r k /\ live r /\ wstop r.
Proof.
  intros HA L H. unfold scan_pow2 in H. destruct l as [|x l]; [destruct (live_nil L)|]. rewrite peek_cons in H. cbn [bind] in H. destruct (P x) eqn:Ex; [|discriminate]. cbn [negb] in H.
  destruct (stops_0 P Q x l HA L Ex) as [Ll H10]. rewrite next_same in H by exact H10. cbn [bind] in H.
  destruct (digits_loop _ _ _) as [[ok c]| |] eqn:E in H; cbn [bind] in H; try discriminate. destruct ok; [|discriminate]. cbn [negb] in H.
  apply digits_inv in E; [|apply HA|exact Ll]. destruct E as (i & r & -> & F & Hr & N & -> & Lr). assert (Hs : spaced Q (x :: i)) by (apply (spaced_intro P); auto).
  destruct r as [|y r]; [destruct (live_nil Lr)|]. rewrite peek_cons in H. cbn [bind] in H. destruct (is_digit y); [discriminate|].
  replace (rev i ++ x :: p) with (rev (x :: i) ++ p) in H by (cbn [rev]; rewrite <- app_assoc; reflexivity). destruct (rev_last (x :: i) p ltac:(discriminate)) as (q & Eq).
  rewrite Eq in H. destruct (number_suffix _ _ _) as [[[ok b'] c]| |] eqn:E in H; cbn [bind] in H; try discriminate. destruct ok; [|discriminate]. cbn [negb] in H. destruct b'; [discriminate|]. injection H as <- <-.
  apply suffix_inv in E; [|exact Lr]. destruct E as (Hq & sf & r1 & E1 & Hsf & -> & Lr1 & Hw). exists (x :: i), sf, r1. rewrite rev_app_distr, <- app_assoc, Eq, E1.
  repeat (split; [assumption || reflexivity|]). exact Hw.
Qed.
Lemma skip2 p a b l k : a <> 10 -> b <> 10 -> skip 2 (Cur p (a :: b :: l) k) = Ok (Cur (b :: a :: p) l k).
Proof. intros Ha Hb. cbn [skip]. rewrite next_same by exact Ha. cbn [bind]. rewrite next_same by exact Hb. reflexivity. Qed.
Lemma digit_inv fuel p l k t d : live l -> is_digit (hd 0 l) = true -> scan_digit fuel (Cur p l k) = Ok (Tok t d) ->
  exists b s r, number b s /\ t = kind b /\ l = s ++ r /\ d = Cur (rev s ++ p) r k /\ live r /\ wstop r.
Proof.
  intros L Hd H. unfold scan_digit in H. destruct l as [|a l]; [destruct (live_nil L)|]. rewrite peek_cons in H. cbn [bind] in H.
  destruct (Z.eqb_spec a 48) as [->|]; [|apply (dec_inv fuel p (a :: l) k t d); assumption].
  destruct (live_cons 48 l L ltac:(lia)) as [_ Ll]. destruct l as [|b l]; [destruct (live_nil Ll)|]. rewrite peekn_cons1 in H. cbn [bind] in H.
  destruct ((b =? 120) || (b =? 88)) eqn:E1.
  { rewrite skip2 in H by lia. cbn [bind] in H. destruct (live_cons b l Ll ltac:(lia)) as [_ Ll']. apply hex_inv in H; [|exact Ll']. destruct H as (b' & s & r & Hn & -> & -> & -> & Lr & Hw).
    exists b', (48 :: b :: s), r. split; [apply Hn; lia|]. split; [reflexivity|]. split; [reflexivity|]. split; [cbn [rev]; rewrite <- !app_assoc; reflexivity|auto]. }
  destruct ((b =? 111) || (b =? 79)) eqn:E2.
  { rewrite skip2 in H by lia. cbn [bind] in H. destruct (live_cons b l Ll ltac:(lia)) as [_ Ll']. apply (pow2_inv is_oct oct_dig) in H; [|auto|exact Ll']. destruct H as (i & sf & r & Hi & Hl & Hs & -> & -> & -> & Lr & Hw).
    exists false, (48 :: b :: i ++ sf), r. split; [apply (nu_oct _ i sf); auto; exists b; split; [lia|reflexivity]|]. split; [reflexivity|]. split; [cbn [app]; rewrite <- app_assoc; reflexivity|]. split; [cbn [rev]; rewrite <- !app_assoc; reflexivity|auto]. }
  destruct ((b =? 98) || (b =? 66)) eqn:E3.
  { rewrite skip2 in H by lia. cbn [bind] in H. destruct (live_cons b l Ll ltac:(lia)) as [_ Ll']. apply (pow2_inv is_bin bin_dig) in H; [|auto|exact Ll']. destruct H as (i & sf & r & Hi & Hl & Hs & -> & -> & -> & Lr & Hw).
    exists false, (48 :: b :: i ++ sf), r. split; [apply (nu_bin _ i sf); auto; exists b; split; [lia|reflexivity]|]. split; [reflexivity|]. split; [cbn [app]; rewrite <- app_assoc; reflexivity|]. split; [cbn [rev]; rewrite <- !app_assoc; reflexivity|auto]. }
  apply (dec_inv fuel p (48 :: b :: l) k t d); assumption.
Qed.

(** ** The other way *)
Lemma ends_elim s r : ends s r -> wstop r /\ (hd 0 r = 46 -> hd 0 (tl r) = 46 /\ ~ In 46 s).
Proof.
  intros (x & r' & -> & Hx & Hd). split; [exists x, r'; split; [reflexivity|]; rewrite <- word_iff in Hx; destruct (is_alphanum_ x); [congruence|reflexivity]|exact Hd].
Qed.
Lemma frac_dt Q dt fr : fraction Q dt fr -> dt = true -> In 46 fr.
Proof. intros [| |s Hs] E; [discriminate|left; reflexivity|left; reflexivity]. Qed.
Lemma rest_stop P Q mark fr ex sf dt e b r : agrees P Q -> ~ Q mark -> ~ Q (mark - 32) -> mark = 101 \/ mark = 112 -> wstop r -> fraction Q dt fr -> exponent mark e ex -> suffix (dt || e) b sf -> (e = true \/ ~ Q (hd 0 sf)) ->
  stops (pu P) (fr ++ ex ++ sf ++ r).
Proof.
  intros HA Q1 Q2 Hm (x & r' & -> & Hx) Hfr Hex Hsf Hh. pose proof HA as (_ & HPQ & H95 & HW).
  assert (Hpu : forall c, ~ Q c -> c <> 95 -> pu P c = false). { intros c H1 H2. apply not_true_is_false. rewrite (ag_pu P Q c HA). tauto. }
  assert (N46 : ~ Q 46). { intros A. apply HW in A. unfold word_char in A. lia. }
  destruct Hfr as [| |s Hs]; cbn [app]; [|exists 46, (ex ++ sf ++ x :: r'); split; [reflexivity|apply Hpu; [exact N46|lia]]|exists 46, (s ++ ex ++ sf ++ x :: r'); split; [reflexivity|apply Hpu; [exact N46|lia]]].
  destruct Hex as [|ex [c sg ds Hc _ _ _]]; cbn [app].
  - destruct sf as [|y sf]; cbn [app].
    + exists x, r'. split; [reflexivity|]. apply Hpu; [intros A; apply HW, word_iff in A; congruence|intros ->; discriminate].
    + exists y, (sf ++ x :: r'). split; [reflexivity|]. apply suffix_head in Hsf. cbn in Hsf. apply Hpu; [destruct Hh as [|Hh]; [discriminate|exact Hh]|lia].
  - eexists. eexists. split; [reflexivity|]. apply Hpu; [destruct Hc as [-> | ->]; assumption|lia].
Qed.
Lemma dec_ok fuel p k i fr ex sf d e b r : spaced dec_dig i -> fraction dec_dig d fr -> exponent 101 e ex -> last (i ++ fr ++ ex) 0 <> 95 -> suffix (d || e) b sf -> live r -> ends (i ++ fr ++ ex ++ sf) r ->
  (length (i ++ fr ++ ex ++ sf) < fuel)%nat -> scan_dec fuel (Cur p ((i ++ fr ++ ex ++ sf) ++ r) k) = Ok (Tok (kind b) (Cur (rev (i ++ fr ++ ex ++ sf) ++ p) r k)).
Proof.
  intros Hi Hfr Hex Hl Hsf L Hend Hf. apply ends_elim in Hend. destruct Hend as [Hw Hd46].
  assert (Hh : e = true \/ ~ dec_dig (hd 0 sf)). { right. destruct sf as [|y sf]; [cbn; unfold dec_dig; lia|]. apply suffix_head in Hsf. cbn in *. unfold dec_dig. lia. }
  destruct (spaced_elim is_digit dec_dig i ag_dec Hi) as (x & t & Ei & Hx & Hxn & _ & _ & F & N).
  rewrite scan_dec_split, <- !app_assoc. rewrite (digits_ok is_digit cls_dec i); [|rewrite app_length in Hf; lia|exact F|apply (rest_stop is_digit dec_dig 101 fr ex sf d e b r); auto; unfold dec_dig; lia|exact N].
  cbn [bind negb]. apply (rest_ok is_digit dec_dig fuel _ 101 i p k fr ex sf d e b r); auto; try (unfold dec_dig; lia).
  - apply fracs_dec.
  - rewrite Ei. discriminate.
  - intros A. destruct (Hd46 A) as [A1 A2]. split; [exact A1|]. destruct d; [|reflexivity]. exfalso. apply A2. apply in_or_app. right. apply in_or_app. left. apply (frac_dt dec_dig true fr Hfr eq_refl).
  - rewrite app_length in Hf. lia.
Qed.
Lemma hex_ok fuel p k i fr ex sf d e b r : spaced hex_dig i -> fraction hex_dig d fr -> exponent 112 e ex -> last (i ++ fr ++ ex) 0 <> 95 -> suffix (d || e) b sf -> (e = true \/ ~ hex_dig (hd 0 sf)) -> live r ->
  wstop r -> (hd 0 r = 46 -> hd 0 (tl r) = 46 /\ ~ In 46 (i ++ fr ++ ex ++ sf)) ->
  (length (i ++ fr ++ ex ++ sf) < fuel)%nat -> scan_hex fuel (Cur p ((i ++ fr ++ ex ++ sf) ++ r) k) = Ok (Tok (kind b) (Cur (rev (i ++ fr ++ ex ++ sf) ++ p) r k)).
Proof.
  intros Hi Hfr Hex Hl Hsf Hh L Hw Hd46 Hf.
  destruct (spaced_elim is_hex hex_dig i ag_hex Hi) as (x & t & -> & Hx & Hxn & F & N & _ & _). rewrite app_length in Hf. cbn [length] in Hf.
  rewrite scan_hex_split, <- !app_assoc. cbn [app]. rewrite peek_cons. cbn [bind]. rewrite Hx. cbn [negb]. rewrite next_same by (apply (cls10 is_hex x cls_hex Hx)). cbn [bind].
  rewrite (digits_ok is_hex cls_hex t); [|lia|exact F|apply (rest_stop is_hex hex_dig 112 fr ex sf d e b r); auto; unfold hex_dig; lia|exact N].
  cbn [bind negb]. replace (rev t ++ x :: p) with (rev (x :: t) ++ p) by (cbn [rev]; rewrite <- app_assoc; reflexivity).
  apply (rest_ok is_hex hex_dig fuel _ 112 (x :: t) p k fr ex sf d e b r); auto; try (unfold hex_dig; lia); try discriminate.
  - apply fracs_hex.
  - intros A. destruct (Hd46 A) as [A1 A2]. split; [exact A1|]. destruct d; [|reflexivity]. exfalso. apply A2. apply in_or_app. right. apply in_or_app. left. apply (frac_dt hex_dig true fr Hfr eq_refl).
Qed.
Lemma pow2_ok P Q fuel p k i sf r : agrees P Q -> (forall c, Q c -> dec_dig c) -> spaced Q i -> last i 0 <> 95 -> suffix false false sf -> live r -> wstop r -> (length (i ++ sf) < fuel)%nat ->
  scan_pow2 fuel P (Cur p ((i ++ sf) ++ r) k) = Ok (Tok TInteger (Cur (rev (i ++ sf) ++ p) r k)).
Proof.
  intros HA HQ Hi Hl Hsf L Hw Hf. destruct (spaced_elim P Q i HA Hi) as (x & t & -> & Hx & Hxn & F & N & _ & _). rewrite app_length in Hf. cbn [length] in Hf.
  assert (Hst : exists y w, sf ++ r = y :: w /\ ~ dec_dig y /\ y <> 95).
  { destruct sf as [|y sf].
    - destruct Hw as (y & r' & -> & Hy). exists y, r'. split; [reflexivity|]. assert (A : ~ word_char y) by (rewrite <- word_iff; congruence). unfold word_char in A. unfold dec_dig. lia.
    - exists y, (sf ++ r). split; [reflexivity|]. apply suffix_head in Hsf. cbn in Hsf. unfold dec_dig. lia. }
  destruct Hst as (y & w & Ey & Hy & Hy95).
  unfold scan_pow2. rewrite <- app_assoc. cbn [app]. rewrite peek_cons. cbn [bind]. rewrite Hx. cbn [negb]. rewrite next_same by (apply (cls10 P x (proj1 HA) Hx)). cbn [bind].
  rewrite (digits_ok P (proj1 HA) t); [|lia|exact F| |exact N].
  2:{ exists y, w. split; [exact Ey|]. apply not_true_is_false. rewrite (ag_pu P Q y HA). intros [A|A]; [apply Hy, HQ, A|contradiction]. }
  cbn [bind negb]. rewrite Ey, peek_cons. cbn [bind]. replace (is_digit y) with false by (unfold dec_dig in Hy; unfold is_digit; lia). rewrite <- Ey.
  replace (rev t ++ x :: p) with (rev (x :: t) ++ p) by (cbn [rev]; rewrite <- app_assoc; reflexivity). destruct (rev_last (x :: t) p ltac:(discriminate)) as (q & Eq).
  rewrite Eq, (suffix_ok fuel false false) by (assumption || lia). cbn [bind negb]. rewrite <- Eq. change (x :: t ++ sf) with ((x :: t) ++ sf). rewrite rev_app_distr, <- app_assoc. reflexivity.
Qed.
Lemma digit_ok fuel p k b s r : number b s -> live r -> ends s r -> (length s < fuel)%nat -> scan_digit fuel (Cur p (s ++ r) k) = Ok (Tok (kind b) (Cur (rev s ++ p) r k)).
Proof.
  intros Hn L He Hf. unfold scan_digit. destruct Hn as [i fr ex sf d e b Hi Hfr Hex Hl Hsf|s i fr ex sf d e b Hi Hfr Hex Hl Hsf Hh (c & Hc & ->)|s i sf Hi Hl Hsf (c & Hc & ->)|s i sf Hi Hl Hsf (c & Hc & ->)].
  - pose proof Hi as ((x & t & -> & Hx) & F & _).
    assert (Hhx : exists y w, t ++ fr ++ ex ++ sf ++ r = y :: w /\ ~ In y [120; 88; 111; 79; 98; 66]).
    { inversion F as [|? ? _ F']; subst. destruct t as [|y t].
      - pose proof (ends_elim _ _ He) as [Hw _]. destruct Hfr as [| |s Hs]; cbn [app]; [|eexists; eexists; split; [reflexivity|cbn; lia]|eexists; eexists; split; [reflexivity|cbn; lia]].
        destruct Hex as [|ex [c sg ds Hc _ _ _]]; cbn [app].
        + destruct sf as [|y sf]; cbn [app].
          * destruct Hw as (y & r' & -> & Hy). exists y, r'. split; [reflexivity|]. assert (A : ~ word_char y) by (rewrite <- word_iff; congruence). unfold word_char in A. cbn. lia.
          * eexists. eexists. split; [reflexivity|]. apply suffix_head in Hsf. cbn in *. lia.
        + eexists. eexists. split; [reflexivity|]. cbn. lia.
      - exists y, (t ++ fr ++ ex ++ sf ++ r). split; [reflexivity|]. inversion F' as [|? ? Hy _]; subst. unfold dec_dig in Hy. cbn. lia. }
    destruct Hhx as (y & w & Ey & Hy). cbn [In] in Hy.
    assert (E : (((x :: t) ++ fr ++ ex ++ sf) ++ r) = x :: y :: w) by (rewrite <- !app_assoc; cbn [app]; rewrite Ey; reflexivity).
    rewrite E, peek_cons, peekn_cons1. cbn [bind]. replace ((y =? 120) || (y =? 88)) with false by lia. replace ((y =? 111) || (y =? 79)) with false by lia. replace ((y =? 98) || (y =? 66)) with false by lia.
    rewrite <- E. destruct (x =? 48); apply (dec_ok fuel p k (x :: t) fr ex sf d e b r); assumption.
  - apply ends_elim in He. destruct He as [Hw Hd46]. cbn [app length] in *. rewrite peek_cons, peekn_cons1. cbn [bind]. change (48 =? 48) with true. replace ((c =? 120) || (c =? 88)) with true by lia. cbv iota.
    rewrite skip2 by lia. cbn [bind]. rewrite (hex_ok fuel _ k i fr ex sf d e b r); auto; [cbn [rev]; rewrite <- !app_assoc; reflexivity| |lia].
    intros A. destruct (Hd46 A) as [A1 A2]. split; [exact A1|]. intros A3. apply A2. right. right. exact A3.
  - apply ends_elim in He. destruct He as [Hw _]. cbn [app length] in *. rewrite peek_cons, peekn_cons1. cbn [bind]. change (48 =? 48) with true. replace ((c =? 120) || (c =? 88)) with false by lia. replace ((c =? 111) || (c =? 79)) with true by lia. cbv iota.
    rewrite skip2 by lia. cbn [bind]. rewrite (pow2_ok is_oct oct_dig); auto; [cbn [rev]; rewrite <- !app_assoc; reflexivity| |lia]. unfold oct_dig, dec_dig. intros; lia.
  - apply ends_elim in He. destruct He as [Hw _]. cbn [app length] in *. rewrite peek_cons, peekn_cons1. cbn [bind]. change (48 =? 48) with true. replace ((c =? 120) || (c =? 88)) with false by lia. replace ((c =? 111) || (c =? 79)) with false by lia. replace ((c =? 98) || (c =? 66)) with true by lia. cbv iota.
    rewrite skip2 by lia. cbn [bind]. rewrite (pow2_ok is_bin bin_dig); auto; [cbn [rev]; rewrite <- !app_assoc; reflexivity| |lia]. unfold bin_dig, dec_dig. intros; lia.
Qed.

(** ** Through [scan_token] *)
Lemma scan_token_digit fuel m p a l k : is_digit a = true -> (0 < fuel)%nat -> scan_token fuel m (Cur p (a :: l) k) = (s <- scan_digit fuel (Cur p (a :: l) k) ;; Ok (m, s)).
Proof.
  intros Ha Hf. destruct fuel as [|fuel]; [lia|]. assert (B : 48 <= a <= 57) by (unfold is_digit in Ha; lia). unfold scan_token. rewrite skip_ws_none by lia. cbn [bind]. rewrite peek_cons. cbn [bind].
  assert (N : forall x, x < 48 \/ 57 < x -> (a =? x) = false) by (intros; lia).
  rewrite !N by lia. rewrite Ha. cbv zeta. rewrite next_cons. cbn [bind]. rewrite back_cons. cbn [bind orb]. replace (k + newlines [a] - newlines [a]) with k by lia. reflexivity.
Qed.
Lemma number_head b s : number b s -> exists a t, s = a :: t /\ dec_dig a.
Proof.
  intros [i fr ex sf d e b' ((x & t & -> & Hx) & _)|s' i fr ex sf d e b' _ _ _ _ _ _ (c & _ & ->)|s' i sf _ _ _ (c & _ & ->)|s' i sf _ _ _ (c & _ & ->)];
    (eexists; eexists; split; [reflexivity|]); (assumption || (unfold dec_dig; lia)).
Qed.
