(** Hexadecimal encoding and decoding. *)
From Coq Require Import ZArith Lia Bool List ZifyBool.
From Verif Require Import Mach CodecModel CodecSpec CodecProofs B64Proofs.
Import ListNotations.
Open Scope Z_scope.

Lemma hex_enc_digits : forallb (fun b => match get hex_alphabet (Z.shiftr b 4), get hex_alphabet (Z.land b 15) with
   Ok x, Ok y => (x =? hex_digit (b / 16)) && (y =? hex_digit (b mod 16)) | _, _ => false end) (map Z.of_nat (seq 0 256)) = true.
Proof. vm_compute. reflexivity. Qed.
Lemma hex_rev_digits : forallb (fun b => match get hex_reverse b with
   Ok x => match hex_value b with Some v => (x =? v) && (v <=? 15) && (0 <=? v) | None => x =? 255 end | _ => false end) (map Z.of_nat (seq 0 256)) = true.
Proof. vm_compute. reflexivity. Qed.
Lemma all_bytes (P : Z -> bool) : forallb P (map Z.of_nat (seq 0 256)) = true -> forall b, is_byte b -> P b = true.
Proof.
  intros H b Hb. rewrite forallb_forall in H. apply H. apply in_map_iff. exists (Z.to_nat b). unfold is_byte in Hb. split; [lia|].
  apply in_seq. change 256%nat with (Z.to_nat 256). lia.
Qed.
Lemma enc_digits b : is_byte b -> get hex_alphabet (Z.shiftr b 4) = Ok (hex_digit (b / 16)) /\ get hex_alphabet (Z.land b 15) = Ok (hex_digit (b mod 16)).
Proof.
  intros Hb. pose proof (all_bytes _ hex_enc_digits b Hb) as H. cbv beta in H.
  destruct (get hex_alphabet (Z.shiftr b 4)) as [x| |]; try discriminate. destruct (get hex_alphabet (Z.land b 15)) as [y| |]; try discriminate.
  apply andb_prop in H as [H1 H2]. apply Z.eqb_eq in H1, H2. subst. auto.
Qed.
Lemma rev_digit c : is_byte c -> match hex_value c with Some v => get hex_reverse c = Ok v /\ 0 <= v <= 15 | None => get hex_reverse c = Ok 255 end.
Proof.
  intros Hb. pose proof (all_bytes _ hex_rev_digits c Hb) as H. cbv beta in H.
  destruct (get hex_reverse c) as [x| |]; try discriminate. destruct (hex_value c).
  - apply andb_prop in H as [H H3]. apply andb_prop in H as [H1 H2]. apply Z.eqb_eq in H1. subst. split; [reflexivity|lia].
  - apply Z.eqb_eq in H. subst. reflexivity.
Qed.
Lemma hex_enc_loop_ok : forall src d r, Forall is_byte src -> 2 * zlen src <= zlen r ->
  hex_enc_loop src (d ++ r) (zlen d) = Ok (d ++ hex_text src ++ skipn (2 * length src) r).
Proof.
  induction src as [|b src IH]; intros d r Hb Hr.
  - reflexivity.
  - fcons Hb H0. rewrite zlen_cons in Hr. pose proof (zlen_nonneg src).
    destruct r as [|r0 [|r1 r]]; [change (zlen (@nil Z)) with 0 in Hr; lia|change (zlen [r0]) with 1 in Hr; lia|].
    cbn [hex_enc_loop]. destruct (enc_digits b H0) as [-> ->]. cbn [bind].
    rewrite set_app by reflexivity. cbn [bind].
    replace (d ++ hex_digit (b / 16) :: r1 :: r) with ((d ++ [hex_digit (b / 16)]) ++ r1 :: r) by (rewrite <- app_assoc; reflexivity).
    rewrite set_app by (rewrite zlen_app; reflexivity). cbn [bind].
    replace ((d ++ [hex_digit (b / 16)]) ++ hex_digit (b mod 16) :: r) with ((d ++ [hex_digit (b / 16); hex_digit (b mod 16)]) ++ r) by (rewrite <- !app_assoc; reflexivity).
    replace (zlen d + 2) with (zlen (d ++ [hex_digit (b / 16); hex_digit (b mod 16)])) by (rewrite zlen_app; reflexivity).
    rewrite IH by (rewrite ?zlen_cons in *; assumption || lia). rewrite <- !app_assoc. cbn [length hex_text flat_map app].
    replace (2 * S (length src))%nat with (S (S (2 * length src))) by lia. reflexivity.
Qed.
Lemma hex_text_length src : length (hex_text src) = (2 * length src)%nat.
Proof. unfold hex_text. induction src; cbn [flat_map app length]; lia. Qed.
Lemma hex_encode_ok src dst : Forall is_byte src -> zlen src < 2 ^ 63 -> 2 * zlen src <= zlen dst ->
  hex_encode_buffer src dst = Ok (hex_text src, hex_text src ++ skipn (2 * length src) dst).
Proof.
  intros Hb Hn Hd. unfold hex_encode_buffer, hex_encode_len. pose proof (zlen_nonneg src).
  assert (usz (zlen src * 2) = zlen (hex_text src)) as E.
  { unfold usz. rewrite Z.mod_small by lia. unfold zlen. rewrite hex_text_length. lia. }
  rewrite E. assert (zlen (hex_text src) = 2 * zlen src) as L by (unfold zlen; rewrite hex_text_length; lia).
  replace (zlen dst <? zlen (hex_text src)) with false by lia.
  pose proof (hex_enc_loop_ok src [] dst Hb Hd) as H1. cbn [app] in H1. change (zlen (@nil Z)) with 0 in H1. rewrite H1. cbn [bind]. rewrite upto_at by reflexivity. reflexivity.
Qed.
(** Two at a time. *)
Lemma pairs_ind (P : list Z -> Prop) : P [] -> (forall a b r, P r -> P (a :: b :: r)) -> forall n l, length l = (2 * n)%nat -> P l.
Proof.
  intros H0 H2. induction n as [|n IH]; intros l Hl.
  - destruct l; [exact H0|discriminate].
  - destruct l as [|a [|b r]]; try (cbn [length] in Hl; lia). apply H2, IH. cbn [length] in Hl. lia.
Qed.
Lemma hex_pairs : forallb (fun x => forallb (fun y => byte (Z.lor (Z.shiftl x 4) y) =? 16 * x + y) (map Z.of_nat (seq 0 16))) (map Z.of_nat (seq 0 16)) = true.
Proof. vm_compute. reflexivity. Qed.
Lemma hex_pair x y : 0 <= x <= 15 -> 0 <= y <= 15 -> byte (Z.lor (Z.shiftl x 4) y) = 16 * x + y.
Proof.
  intros Hx Hy. pose proof hex_pairs as H. rewrite forallb_forall in H.
  assert (forall z, 0 <= z <= 15 -> In z (map Z.of_nat (seq 0 16))) as I.
  { intros z Hz. apply in_map_iff. exists (Z.to_nat z). split; [lia|]. apply in_seq. lia. }
  specialize (H x (I x Hx)). rewrite forallb_forall in H. apply Z.eqb_eq, H, I, Hy.
Qed.
Lemma hex_dec_loop_ok : forall n src, length src = (2 * n)%nat -> forall fuel s d r, (n < fuel)%nat -> Forall is_byte src -> length s = (2 * length d)%nat ->
  (n <= length r)%nat ->
  match hex_meaning src with
  | Some x => hex_dec_loop fuel (s ++ src) (d ++ r) (2 * zlen d + 1) (zlen d) = Ok (Val (zlen (d ++ x)), d ++ x ++ skipn n r) /\ length x = n
  | None => exists buf, hex_dec_loop fuel (s ++ src) (d ++ r) (2 * zlen d + 1) (zlen d) = Ok (Fault InvalidCharacter, buf) /\ zlen buf = zlen (d ++ r)
  end.
Proof.
  induction n as [|n IH]; intros src Hl fuel s d r Hf Hb Hs Hr; destruct fuel as [|fuel]; try lia.
  - destruct src; [|discriminate]. cbn [hex_meaning hex_dec_loop]. rewrite !app_nil_r.
    replace (2 * zlen d + 1 <? zlen s) with false by (unfold zlen; lia). split; reflexivity.
  - destruct src as [|a [|b src]]; try (cbn [length] in Hl; lia). fcons Hb Ha. fcons Hb Hb0.
    destruct r as [|r0 r]; [cbn [length] in Hr; lia|]. cbn [hex_dec_loop].
    assert (zlen s = 2 * zlen d) as Hs' by (unfold zlen; lia).
    replace (2 * zlen d + 1 <? zlen (s ++ a :: b :: src)) with true by (rewrite zlen_app, !zlen_cons; pose proof (zlen_nonneg src); lia).
    rewrite (get_at s (a :: b :: src) 0 (2 * zlen d + 1 - 1)) by lia. change (get (a :: b :: src) 0) with (Ok a). cbn [bind].
    rewrite (get_at s (a :: b :: src) 1 (2 * zlen d + 1)) by lia. change (get (a :: b :: src) 1) with (Ok b).
    pose proof (rev_digit a Ha) as Ra. pose proof (rev_digit b Hb0) as Rb. cbn [hex_meaning].
    assert (Hfault : forall x y, (15 <? x) || (15 <? y) = true -> get hex_reverse a = Ok x -> get hex_reverse b = Ok y -> exists buf,
      (a0 <- get hex_reverse a ;; s1 <- Ok b ;; b0 <- get hex_reverse s1 ;;
       if (15 <? a0) || (15 <? b0) then Ok (Fault InvalidCharacter, d ++ r0 :: r)
       else (dst <- set (d ++ r0 :: r) (zlen d) (byte (Z.lor (Z.shiftl a0 4) b0)) ;; hex_dec_loop fuel (s ++ a :: b :: src) dst (2 * zlen d + 1 + 2) (zlen d + 1)))
      = Ok (Fault InvalidCharacter, buf) /\ zlen buf = zlen (d ++ r0 :: r)).
    { intros x y C -> E. cbn [bind]. rewrite E. cbn [bind]. rewrite C. exists (d ++ r0 :: r). split; reflexivity. }
    destruct (hex_value a) as [x|].
    2:{ destruct (hex_value b) as [y|]; [destruct Rb as [Rb _]; exact (Hfault 255 y eq_refl Ra Rb)|exact (Hfault 255 255 eq_refl Ra Rb)]. }
    destruct Ra as [Ra Ra'].
    destruct (hex_value b) as [y|].
    2:{ apply (Hfault x 255); [apply orb_true_r|exact Ra|exact Rb]. }
    destruct Rb as [Rb Rb']. clear Hfault. rewrite Ra. cbn [bind]. rewrite Rb. cbn [bind].
    replace ((15 <? x) || (15 <? y)) with false by lia. rewrite set_app by reflexivity. cbn [bind]. rewrite hex_pair by lia.
    replace (s ++ a :: b :: src) with ((s ++ [a; b]) ++ src) by (rewrite <- app_assoc; reflexivity).
    replace (d ++ 16 * x + y :: r) with ((d ++ [16 * x + y]) ++ r) by (rewrite <- app_assoc; reflexivity).
    replace (zlen d + 1) with (zlen (d ++ [16 * x + y])) by (rewrite zlen_app; reflexivity).
    replace (2 * zlen d + 1 + 2) with (2 * zlen (d ++ [16 * x + y]) + 1) by (rewrite zlen_app; change (zlen [16 * x + y]) with 1; lia).
    specialize (IH src ltac:(cbn [length] in Hl; lia) fuel (s ++ [a; b]) (d ++ [16 * x + y]) r ltac:(lia) Hb ltac:(rewrite !app_length; cbn [length]; lia) ltac:(cbn [length] in Hr; lia)).
    destruct (hex_meaning src) as [l|].
    + destruct IH as [E L]. rewrite E. rewrite <- !app_assoc. cbn [app length skipn]. split; [reflexivity|lia].
    + destruct IH as (buf & E & L). exists buf. split; [exact E|]. rewrite L. unfold zlen. rewrite !app_length. cbn [length]. lia.
Qed.
Lemma hex_decode_ok src dst : Forall is_byte src -> zlen src mod 2 = 0 -> zlen src / 2 <= zlen dst ->
  exists o buf, hex_decode_buffer src dst = Ok (o, buf) /\ zlen buf = zlen dst /\
    match hex_meaning src with
    | Some x => o = Val x /\ buf = x ++ skipn (length x) dst
    | None => o = Fault InvalidCharacter
    end.
Proof.
  intros Hb He Hd. unfold hex_decode_buffer. rewrite He. replace (zlen dst <? zlen src / 2) with false by lia. cbn [Z.eqb negb orb].
  assert (exists n, length src = (2 * n)%nat) as [n Hl].
  { exists (Z.to_nat (zlen src / 2)). pose proof (Z.div_mod (zlen src) 2). unfold zlen in *. lia. }
  assert (zlen src / 2 = Z.of_nat n) as Hn by (unfold zlen; rewrite Hl, Nat2Z.inj_mul, Z.mul_comm; apply Z.div_mul; lia).
  pose proof (hex_dec_loop_ok n src Hl (S (length src)) [] [] dst ltac:(lia) Hb eq_refl ltac:(unfold zlen in *; lia)) as H.
  cbn [app] in H. change (2 * zlen (@nil Z) + 1) with 1 in H. change (zlen (@nil Z)) with 0 in H.
  destruct (hex_meaning src) as [x|].
  - destruct H as [-> L]. cbn [bind]. rewrite ret_ok by reflexivity. exists (Val x), (x ++ skipn n dst). split; [reflexivity|].
    split; [unfold zlen in *; rewrite app_length, skipn_length; lia|]. rewrite L. auto.
  - destruct H as (buf & -> & L). cbn [bind]. exists (Fault InvalidCharacter), buf. auto.
Qed.
Lemma hex_value_digit d : 0 <= d < 16 -> hex_value (hex_digit d) = Some d.
Proof. intros H. unfold hex_value, hex_digit. destruct (Z.ltb_spec d 10); repeat match goal with |- context [if ?c then _ else _] => destruct c eqn:? end; f_equal; lia. Qed.
Lemma hex_meaning_text src : Forall is_byte src -> hex_meaning (hex_text src) = Some src.
Proof.
  unfold hex_text. induction src as [|b src IH]; intros Hb; [reflexivity|]. fcons Hb H0. unfold is_byte in H0. cbn [flat_map app hex_meaning].
  pose proof (Z.div_mod b 16 ltac:(lia)). pose proof (Z.mod_pos_bound b 16 ltac:(lia)).
  assert (0 <= b / 16 < 16) by (split; [apply Z.div_pos|apply Z.div_lt_upper_bound]; lia).
  rewrite !hex_value_digit, IH by assumption. replace (16 * (b / 16) + b mod 16) with b by lia. reflexivity.
Qed.
Lemma hex_digit_value c v : hex_value c = Some v -> hex_digit v = lower_case c /\ 0 <= v < 16.
Proof.
  unfold hex_value, hex_digit, lower_case. intros H.
  repeat match goal with H : context [if ?c then _ else _] |- _ => destruct c eqn:?; [injection H as <-|] end; try discriminate;
  repeat match goal with |- context [if ?c then _ else _] => destruct c eqn:? end; lia.
Qed.
Lemma hex_text_meaning : forall n s x, length s = (2 * n)%nat -> hex_meaning s = Some x -> hex_text x = map lower_case s /\ Forall is_byte x.
Proof.
  induction n as [|n IH]; intros s x Hl E.
  - destruct s; [|discriminate]. injection E as <-. split; constructor.
  - destruct s as [|a [|b s]]; try (cbn [length] in Hl; lia). cbn [hex_meaning] in E.
    destruct (hex_value a) as [u|] eqn:Eu; [|discriminate]. destruct (hex_value b) as [v|] eqn:Ev; [|discriminate].
    destruct (hex_meaning s) as [l|] eqn:El; [|discriminate]. assert (x = 16 * u + v :: l) as -> by congruence. clear E.
    destruct (IH s l ltac:(cbn [length] in Hl; lia) El) as [E1 E2]. apply hex_digit_value in Eu as [Eu Hu], Ev as [Ev Hv].
    assert ((16 * u + v) / 16 = u) as Ed by (symmetry; apply Z.div_unique with v; lia).
    assert ((16 * u + v) mod 16 = v) as Em by (symmetry; apply Z.mod_unique with u; lia).
    split; [|constructor; [unfold is_byte; lia|exact E2]].
    unfold hex_text in *. cbn [flat_map app map]. rewrite Ed, Em, Eu, Ev, E1. reflexivity.
Qed.
