(** String literals. *)
From Coq Require Import ZArith Bool List Lia ZifyBool.
From Verif Require Import Mach LexModel LexSpec LexProofs LexProofs2 LexProofs4.
Import ListNotations.
Open Scope Z_scope.

(** ** UTF-8 *)
Lemma lor_add h n b : forallb (fun i => Z.lor h (Z.of_nat i) mod 256 =? h + Z.of_nat i) (seq 0 n) = true -> 0 <= b < Z.of_nat n -> Z.lor h b mod 256 = h + b.
Proof.
  intros H Hb. rewrite forallb_forall in H. specialize (H (Z.to_nat b)). rewrite Z2Nat.id in H by lia. apply Z.eqb_eq, H. apply in_seq. lia.
Qed.
Lemma shiftr_div u n : 0 <= n -> Z.shiftr u n = u / 2 ^ n. Proof. apply Z.shiftr_div_pow2. Qed.
Lemma land63 u : Z.land u 63 = u mod 64. Proof. change 63 with (Z.ones 6). apply Z.land_ones. lia. Qed.
Lemma utf8_bytes_ok u : 0 <= u <= 1114111 -> utf8_bytes u = utf8 u.
Proof.
  intros Hu. unfold utf8_bytes, utf8. rewrite !shiftr_div, !land63 by lia. change (2 ^ 6) with 64. change (2 ^ 12) with 4096. change (2 ^ 18) with 262144.
  assert (L : forall x, Z.lor 128 (x mod 64) mod 256 = 128 + x mod 64) by (intros x; apply (lor_add 128 64); [reflexivity|pose proof (Z.mod_pos_bound x 64 ltac:(lia)); lia]).
  rewrite !L.
  destruct (u <? 128) eqn:B1; [replace (u <=? 127) with true by lia; f_equal; apply Z.mod_small; lia|]. replace (u <=? 127) with false by lia.
  destruct (u <? 2048) eqn:B2.
  { replace (u <=? 2047) with true by lia. rewrite (lor_add 192 32); [reflexivity|reflexivity|]. split; [apply Z.div_pos; lia|]. change (Z.of_nat 32) with 32. apply Z.div_lt_upper_bound; lia. }
  replace (u <=? 2047) with false by lia. destruct (u <? 65536) eqn:B3.
  { replace (u <=? 65535) with true by lia. rewrite (lor_add 224 16); [reflexivity|reflexivity|]. split; [apply Z.div_pos; lia|]. change (Z.of_nat 16) with 16. apply Z.div_lt_upper_bound; lia. }
  replace (u <=? 65535) with false by lia. rewrite (lor_add 240 8); [reflexivity|reflexivity|]. split; [apply Z.div_pos; lia|]. change (Z.of_nat 8) with 8. apply Z.div_lt_upper_bound; lia.
Qed.

(** ** Hexadecimal digits *)
Lemma hexdigit_some c v : hexdigit c = Some v -> c < 128 /\ hex_val c = v /\ is_hex c = true /\ 0 <= v < 16.
Proof.
  unfold hexdigit, hex_val. unf. destruct ((48 <=? c) && (c <=? 57)) eqn:B1; [intros [= <-]; lia|].
  destruct ((97 <=? c) && (c <=? 102)) eqn:B2; [intros [= <-]; lia|]. destruct ((65 <=? c) && (c <=? 70)) eqn:B3; [intros [= <-]; lia|discriminate].
Qed.
Lemma hexdigit_none c : hexdigit c = None -> hex_val c = -1.
Proof.
  unfold hexdigit, hex_val. unf. destruct ((48 <=? c) && (c <=? 57)) eqn:B1; [discriminate|].
  destruct ((97 <=? c) && (c <=? 102)) eqn:B2; [discriminate|]. destruct ((65 <=? c) && (c <=? 70)) eqn:B3; [discriminate|reflexivity].
Qed.
Lemma esc_hex_ok : forall ds u r acc v, hexnum acc ds = Some v -> esc_hex (length ds) (zlen u) acc (u ++ ds ++ r) = Ok (Some v).
Proof.
  induction ds as [|d ds IH]; intros u r acc v H; cbn [length esc_hex]; [cbn in H; congruence|]. cbn [app hexnum] in *.
  rewrite get_app by reflexivity. cbn [bind]. destruct (hexdigit d) as [x|] eqn:Ex; [|discriminate]. destruct (hexdigit_some _ _ Ex) as (H1 & H2 & H3 & H4).
  unfold nibble. replace (128 <=? d) with false by lia. cbn [bind]. rewrite H2. replace (x <? 0) with false by lia.
  replace (u ++ d :: ds ++ r) with ((u ++ [d]) ++ ds ++ r) by (rewrite <- app_assoc; reflexivity). replace (zlen u + 1) with (zlen (u ++ [d])) by (rewrite zlen_app; reflexivity). apply IH. exact H.
Qed.
Lemma esc_hex_inv : forall n u s acc v, esc_hex n (zlen u) acc (u ++ s) = Ok (Some v) -> exists ds r, s = ds ++ r /\ length ds = n /\ hexnum acc ds = Some v.
Proof.
  induction n as [|n IH]; intros u s acc v H; cbn [esc_hex] in H; [exists [], s; injection H as ->; auto|].
  destruct s as [|d s].
  { rewrite app_nil_r, get_oob in H by lia. discriminate. }
  rewrite get_app in H by reflexivity. cbn [bind] in H. unfold nibble in H. destruct (128 <=? d); [discriminate|]. cbn [bind] in H.
  destruct (hex_val d <? 0) eqn:B; [discriminate|]. destruct (hexdigit d) as [x|] eqn:Ex; [|apply hexdigit_none in Ex; lia]. destruct (hexdigit_some _ _ Ex) as (_ & Hx & _).
  replace (u ++ d :: s) with ((u ++ [d]) ++ s) in H by (rewrite <- app_assoc; reflexivity). replace (zlen u + 1) with (zlen (u ++ [d])) in H by (rewrite zlen_app; reflexivity).
  destruct (IH _ _ _ _ H) as (ds & r & -> & Hl & Hn). exists (d :: ds), r. split; [reflexivity|]. split; [cbn; lia|]. cbn [hexnum]. rewrite Ex, <- Hx. exact Hn.
Qed.
Lemma hexnum_hex : forall ds acc v, hexnum acc ds = Some v -> Forall (fun c => is_hex c = true) ds.
Proof. induction ds as [|d ds IH]; intros acc v H; constructor; cbn in H; destruct (hexdigit d) eqn:Ex; try discriminate; [apply (hexdigit_some _ _ Ex)|eapply IH; exact H]. Qed.
Lemma hexnum_bound : forall ds acc v, 0 <= acc -> hexnum acc ds = Some v -> 0 <= v < (acc + 1) * 16 ^ zlen ds.
Proof.
  induction ds as [|d ds IH]; intros acc v Ha H; cbn [hexnum] in H; [injection H as <-; cbn; lia|]. destruct (hexdigit d) as [x|] eqn:Ex; [|discriminate].
  destruct (hexdigit_some _ _ Ex) as (_ & _ & _ & Hx). apply IH in H; [|lia]. split; [lia|]. rewrite zlen_cons, Z.pow_add_r by (pose proof (zlen_nonneg ds); lia). change (16 ^ 1) with 16.
  eapply Z.lt_le_trans; [apply H|]. rewrite Z.mul_assoc. apply Z.mul_le_mono_nonneg_r; [apply Z.pow_nonneg; lia|lia].
Qed.

(** ** Where the string ends *)
Lemma SE_string_end : forall s m, SE s m -> forall fuel u, m < Z.of_nat fuel -> string_end fuel (u ++ s) (zlen u) = Ok (zlen u + m).
Proof.
  induction 1 as [s|a s Ha|b s m Hb Hm IH|b s m N1 N2 Hm IH|a s m N1 N2 N3 N4 Hm IH]; intros fuel u Hf; (destruct fuel as [|f]; [try (pose proof (SE_nonneg _ _ Hm)); lia|]); cbn [string_end]; rewrite get_app by reflexivity; cbn [bind].
  - change (34 =? 34) with true. cbv iota. f_equal. lia.
  - destruct Ha as [->| ->]; reflexivity.
  - change (92 =? 34) with false. change ((92 =? 10) || (92 =? 0)) with false. change (92 =? 92) with true. cbv iota.
    replace (u ++ 92 :: b :: s) with ((u ++ [92]) ++ b :: s) by (rewrite <- app_assoc; reflexivity). rewrite get_app by (rewrite zlen_app; reflexivity). cbn [bind].
    replace ((b =? 10) || (b =? 0)) with true by lia. replace (zlen u + 1) with (zlen (u ++ [92])) by (rewrite zlen_app; reflexivity). rewrite IH by lia. rewrite zlen_app. change (zlen [92]) with 1. f_equal. lia.
  - change (92 =? 34) with false. change ((92 =? 10) || (92 =? 0)) with false. change (92 =? 92) with true. cbv iota.
    replace (u ++ 92 :: b :: s) with ((u ++ [92]) ++ b :: s) by (rewrite <- app_assoc; reflexivity). rewrite get_app by (rewrite zlen_app; reflexivity). cbn [bind].
    replace ((b =? 10) || (b =? 0)) with false by lia. replace ((u ++ [92]) ++ b :: s) with ((u ++ [92; b]) ++ s) by (rewrite <- !app_assoc; reflexivity). replace (zlen u + 2) with (zlen (u ++ [92; b])) by (rewrite zlen_app; reflexivity). rewrite IH by lia. rewrite zlen_app. change (zlen [92; b]) with 2. f_equal. lia.
  - replace (a =? 34) with false by lia. replace ((a =? 10) || (a =? 0)) with false by lia. replace (a =? 92) with false by lia.
    replace (u ++ a :: s) with ((u ++ [a]) ++ s) by (rewrite <- app_assoc; reflexivity). replace (zlen u + 1) with (zlen (u ++ [a])) by (rewrite zlen_app; reflexivity). rewrite IH by lia. rewrite zlen_app. change (zlen [a]) with 1. f_equal. lia.
Qed.
Lemma SE_hexs' : forall ds s m, Forall (fun c => is_hex c = true) ds -> SE s m -> SE (ds ++ s) (zlen ds + m).
Proof.
  induction ds as [|d ds IH]; intros s m F H; [exact H|]. inversion F; subst. cbn [app]. rewrite zlen_cons. replace (1 + zlen ds + m) with (1 + (zlen ds + m)) by lia.
  apply SE_plain; try (intros ->; discriminate). apply IH; assumption.
Qed.

Lemma simple_valid c b : find (fun p => fst p =? c) simple_escapes = Some b -> c < 128 /\ valid_escape c = snd b /\ c <> 120 /\ c <> 117 /\ c <> 85 /\ c <> 0 /\ c <> 10 /\ 0 <= snd b < 128.
Proof.
  intros H. apply find_some in H. destruct H as [I H]. cbn in I. repeat destruct I as [<-|I]; try contradiction; cbn [fst] in H; apply Z.eqb_eq in H; subst c; vm_compute; repeat split; try discriminate; congruence.
Qed.
Lemma SE_item i s m bs : meaning i = Some bs -> SE s m -> SE (render i ++ s) (zlen (render i) + m).
Proof.
  intros Hi Hs. destruct i as [c|c|ds|ds|ds]; cbn [render meaning app] in *.
  - change (zlen [c]) with 1. destruct ((c =? 34) || (c =? 92) || (c =? 10) || (c =? 0)) eqn:B; [discriminate|]. apply SE_plain; try lia. exact Hs.
  - change (zlen [92; c]) with 2. destruct (find _ simple_escapes) as [b|] eqn:Ef; [|discriminate]. destruct (simple_valid _ _ Ef) as (? & ? & ? & ? & ? & ? & ? & ?). apply SE_slash; assumption.
  - destruct (Nat.eqb (length ds) 2); [|discriminate]. destruct (hexnum 0 ds) eqn:Eh; [|discriminate]. rewrite !zlen_cons. replace (1 + (1 + zlen ds) + m) with (2 + (zlen ds + m)) by lia.
    apply SE_slash; [lia|lia|]. apply SE_hexs'; [eapply hexnum_hex; exact Eh|exact Hs].
  - destruct (Nat.eqb (length ds) 4); [|discriminate]. destruct (hexnum 0 ds) eqn:Eh; [|discriminate]. rewrite !zlen_cons. replace (1 + (1 + zlen ds) + m) with (2 + (zlen ds + m)) by lia.
    apply SE_slash; [lia|lia|]. apply SE_hexs'; [eapply hexnum_hex; exact Eh|exact Hs].
  - destruct (Nat.eqb (length ds) 8); [|discriminate]. destruct (hexnum 0 ds) eqn:Eh; [|discriminate]. rewrite !zlen_cons. replace (1 + (1 + zlen ds) + m) with (2 + (zlen ds + m)) by lia.
    apply SE_slash; [lia|lia|]. apply SE_hexs'; [eapply hexnum_hex; exact Eh|exact Hs].
Qed.
Lemma SE_items r : forall is v, meanings is = Some v -> SE (text is ++ 34 :: r) (zlen (text is)).
Proof.
  induction is as [|i is IH]; intros v H; [constructor|]. cbn [meanings] in H. destruct (meaning i) as [a|] eqn:E1; [|discriminate]. destruct (meanings is) as [b|] eqn:E2; [|discriminate].
  unfold text in *. cbn [map concat]. rewrite <- app_assoc, zlen_app. eapply SE_item; [exact E1|]. eapply IH. reflexivity.
Qed.

Lemma append_hex cap dest x n ds r v : (x = 120 /\ n = 2%nat) \/ (x = 117 /\ n = 4%nat) \/ (x = 85 /\ n = 8%nat) -> length ds = n -> hexnum 0 ds = Some v ->
  zlen dest + zlen (utf8_bytes v) <= cap -> append_esc cap dest (x :: ds ++ r) = Ok (Some (S n), dest ++ utf8_bytes v).
Proof.
  intros Hx Hl Hv Hc. unfold append_esc. change (get (x :: ds ++ r) 0) with (Ok x). cbn [bind]. cbv zeta.
  pose proof (esc_hex_ok ds [x] r 0 v Hv) as He. rewrite Hl in He. change (zlen [x]) with 1 in He. cbn [app] in He.
  destruct Hx as [[-> ->]|[[-> ->]|[-> ->]]].
  - change (if 128 <=? 120 then -1 else valid_escape 120) with 120. change (120 <? 0) with false. change (120 =? 120) with true. cbv iota. rewrite He. cbn [bind]. rewrite puts_ok by exact Hc. reflexivity.
  - change (if 128 <=? 117 then -1 else valid_escape 117) with 117. change (117 <? 0) with false. change (117 =? 120) with false. change (117 =? 117) with true. cbv iota. rewrite He. cbn [bind]. rewrite puts_ok by exact Hc. reflexivity.
  - change (if 128 <=? 85 then -1 else valid_escape 85) with 85. change (85 <? 0) with false. change (85 =? 120) with false. change (85 =? 117) with false. change (85 =? 85) with true. cbv iota. rewrite He. cbn [bind]. rewrite puts_ok by exact Hc. reflexivity.
Qed.
Lemma skip_app : forall s p r k, Forall (fun c => c <> 10) s -> skip (length s) (Cur p (s ++ r) k) = Ok (Cur (rev s ++ p) r k).
Proof.
  induction s as [|a s IH]; intros p r k F; [reflexivity|]. inversion F; subst. cbn [length skip app]. rewrite next_cons. cbn [bind]. rewrite newlines_cons, newlines_nil. replace (a =? 10) with false by lia.
  rewrite Z.add_0_l, Z.add_0_r. rewrite IH by assumption. cur. reflexivity.
Qed.

(** One item. *)
Lemma string_step f inner stop cap dest p i r k bs : meaning i = Some bs -> exact i -> stop <= zlen r -> zlen dest + zlen (render i) < cap ->
  string_loop (S f) inner stop cap dest (Cur p (render i ++ r) k) = string_loop f inner stop cap (dest ++ bs) (Cur (rev (render i) ++ p) r k) /\ zlen bs <= zlen (render i).
Proof.
  intros Hm He Hs Hc. pose proof (zlen_nonneg r). pose proof (zlen_nonneg dest). pose proof (zlen_nonneg (render i)).
  assert (Hlt : stop <? zlen (render i ++ r) = true). { rewrite zlen_app. assert (1 <= zlen (render i)) by (destruct i; cbn [render]; rewrite ?zlen_cons; try pose proof (zlen_nonneg ds); change (zlen []) with 0; lia). lia. }
  cbn [string_loop c_rest]. rewrite Hlt. clear Hlt.
  assert (Hex : forall x n ds, render i = 92 :: x :: ds -> (x = 120 /\ n = 2%nat) \/ (x = 117 /\ n = 4%nat) \/ (x = 85 /\ n = 8%nat) -> length ds = n -> forall v, hexnum 0 ds = Some v ->
     zlen (utf8_bytes v) <= Z.of_nat n ->
     (a <- peek (Cur p (render i ++ r) k) ;; c <- next (Cur p (render i ++ r) k) ;; b <- (if a =? 92 then peek c else Ok 1) ;;
      if (a =? 0) || ((a =? 92) && (b =? 0)) then c <- (if a =? 0 then backtrack c else Ok c) ;; c <- to_end_quote inner c ;; Ok (Err c)
      else if (a =? 10) || ((a =? 92) && (b =? 10)) then c <- backtrack c ;; c <- to_end_quote inner c ;; Ok (Err c)
      else if a =? 92 then '(n, dest) <- append_esc cap dest (c_rest c) ;; match n with None => c <- to_end_quote inner c ;; Ok (Err c) | Some n => c <- skip n c ;; string_loop f inner stop cap dest c end
      else d <- put cap dest a ;; string_loop f inner stop cap d c) = string_loop f inner stop cap (dest ++ utf8_bytes v) (Cur (rev (render i) ++ p) r k)).
  { intros x n ds Er Hx Hl v Hv Hb. rewrite Er in *. cbn [app]. rewrite peek_cons. cbn [bind]. rewrite next_cons. cbn [bind]. change (92 =? 92) with true. cbv iota. rewrite peek_cons. cbn [bind].
    change (92 =? 0) with false. change (92 =? 10) with false. cbn [orb andb]. replace (x =? 0) with false by lia. replace (x =? 10) with false by lia. cbn [c_rest].
    rewrite (append_hex _ _ x n ds r v Hx Hl Hv). 2:{ rewrite !zlen_cons in Hc. unfold zlen in *. lia. } cbn [bind].
    change (newlines [92]) with 0. rewrite Z.add_0_r. rewrite <- Hl. change (S (length ds)) with (length (x :: ds)). change (x :: ds ++ r) with ((x :: ds) ++ r).
    rewrite skip_app. 2:{ constructor; [lia|]. eapply Forall_impl; [|eapply hexnum_hex; exact Hv]. cbn. intros c Hcx. intros ->. discriminate. }
    cbn [bind]. cur. reflexivity. }
  assert (Hex2 : forall x n ds, render i = 92 :: x :: ds -> (x = 120 /\ n = 2%nat) \/ (x = 117 /\ n = 4%nat) \/ (x = 85 /\ n = 8%nat) -> length ds = n -> forall v, hexnum 0 ds = Some v ->
     (n = 2%nat -> v < 128) -> v <= 1114111 -> bs = (if Nat.eqb n 2 then [v] else utf8 v) -> zlen (utf8_bytes v) <= Z.of_nat n /\ utf8_bytes v = bs).
  { intros x n ds Er Hx Hl v Hv Hq1 Hq2 ->. pose proof (hexnum_bound ds 0 v ltac:(lia) Hv) as [Hv0 _]. destruct Hx as [[-> ->]|[[-> ->]|[-> ->]]].
    - specialize (Hq1 eq_refl). assert (utf8_bytes v = [v]) as ->. { rewrite utf8_bytes_ok by lia. unfold utf8. replace (v <=? 127) with true by lia. reflexivity. } split; [cbn; lia|reflexivity].
    - split; [apply utf8_bytes_le4|apply utf8_bytes_ok; lia].
    - split; [pose proof (utf8_bytes_le4 v); lia|apply utf8_bytes_ok; lia]. }
  destruct i as [c|c|ds|ds|ds]; cbn [meaning exact] in *.
  - destruct ((c =? 34) || (c =? 92) || (c =? 10) || (c =? 0)) eqn:B; [discriminate|]. injection Hm as <-. split; [|cbn; lia]. cbn [render app rev]. rewrite peek_cons. cbn [bind]. rewrite next_cons. cbn [bind]. replace (c =? 92) with false by lia. cbn [bind andb orb].
    replace (c =? 0) with false by lia. replace (c =? 10) with false by lia. cbn [orb]. rewrite put_ok by (cbn [render] in Hc; change (zlen [c]) with 1 in Hc; lia). cbn [bind].
    rewrite newlines_cons, newlines_nil. replace (c =? 10) with false by lia. rewrite Z.add_0_l, Z.add_0_r. reflexivity.
  - destruct (find _ simple_escapes) as [b|] eqn:Ef; [|discriminate]. injection Hm as <-. split; [|cbn; lia]. destruct (simple_valid _ _ Ef) as (V1 & V2 & V3 & V4 & V5 & V6 & V7 & V8). cbn [render app rev].
    rewrite peek_cons. cbn [bind]. rewrite next_cons. cbn [bind]. change (92 =? 92) with true. cbv iota. rewrite peek_cons. cbn [bind]. change (92 =? 0) with false. change (92 =? 10) with false. cbn [orb andb].
    replace (c =? 0) with false by lia. replace (c =? 10) with false by lia. cbn [c_rest]. unfold append_esc. change (get (c :: r) 0) with (Ok c). cbn [bind]. cbv zeta. replace (128 <=? c) with false by lia. rewrite V2. replace (snd b <? 0) with false by lia.
    assert (snd b <> 120 /\ snd b <> 117 /\ snd b <> 85) as (S1 & S2 & S3). { clear -Ef. apply find_some in Ef. destruct Ef as [I _]. cbn in I. repeat destruct I as [<-|I]; try contradiction; cbn; lia. }
    replace (snd b =? 120) with false by lia. replace (snd b =? 117) with false by lia. replace (snd b =? 85) with false by lia. rewrite put_ok by (cbn [render] in Hc; change (zlen [92; c]) with 2 in Hc; lia). cbn [bind].
    cbn [skip]. rewrite next_cons. cbn [bind]. rewrite !newlines_cons, newlines_nil. replace (c =? 10) with false by lia. change (92 =? 10) with false. cbv iota. rewrite !Z.add_0_r. reflexivity.
  - destruct (Nat.eqb_spec (length ds) 2) as [Hl|]; [|discriminate]. destruct (hexnum 0 ds) as [v|] eqn:Ev; [|discriminate]. injection Hm as <-. specialize (He v eq_refl).
    destruct (Hex2 120 2%nat ds eq_refl ltac:(auto) Hl v Ev ltac:(auto) ltac:(lia) eq_refl) as [L E1]. split; [|change (zlen [v]) with 1; cbn [render]; rewrite !zlen_cons; pose proof (zlen_nonneg ds); lia]. rewrite <- E1. exact (Hex 120 2%nat ds eq_refl ltac:(auto) Hl v Ev L).
  - destruct (Nat.eqb_spec (length ds) 4) as [Hl|]; [|discriminate]. destruct (hexnum 0 ds) as [v|] eqn:Ev; [|discriminate]. injection Hm as <-.
    pose proof (hexnum_bound ds 0 v ltac:(lia) Ev) as Hb. unfold zlen in Hb. rewrite Hl in Hb. cbn in Hb.
    destruct (Hex2 117 4%nat ds eq_refl ltac:(auto) Hl v Ev ltac:(discriminate) ltac:(lia) eq_refl) as [L E1]. rewrite <- E1. split; [exact (Hex 117 4%nat ds eq_refl ltac:(auto) Hl v Ev L)|]. cbn [render]. rewrite !zlen_cons. unfold zlen at 2. lia.
  - destruct (Nat.eqb_spec (length ds) 8) as [Hl|]; [|discriminate]. destruct (hexnum 0 ds) as [v|] eqn:Ev; [|discriminate]. injection Hm as <-. specialize (He v eq_refl).
    destruct (Hex2 85 8%nat ds eq_refl ltac:(auto) Hl v Ev ltac:(discriminate) ltac:(lia) eq_refl) as [L E1]. rewrite <- E1. split; [exact (Hex 85 8%nat ds eq_refl ltac:(auto) Hl v Ev L)|]. cbn [render]. rewrite !zlen_cons. unfold zlen at 2. lia.
Qed.
Lemma string_loop_items : forall is v f inner cap dest p r k, meanings is = Some v -> Forall exact is -> (length is < f)%nat -> zlen dest + zlen (text is) < cap ->
  string_loop f inner (zlen (34 :: r)) cap dest (Cur p (text is ++ 34 :: r) k) = Ok (Tok (TString (dest ++ v)) (Cur (34 :: rev (text is) ++ p) r k)).
Proof.
  induction is as [|i is IH]; intros v f inner cap dest p r k Hm He Hf Hc; (destruct f as [|f]; [cbn in Hf; lia|]).
  - injection Hm as <-. cbn [text map concat app rev]. cbn [string_loop c_rest]. rewrite Z.ltb_irrefl. rewrite next_cons. cbn [bind]. change (zlen (text [])) with 0 in Hc. rewrite put_ok by lia. cbn [bind]. change (newlines [34]) with 0. rewrite Z.add_0_r, app_nil_r. reflexivity.
  - cbn [meanings] in Hm. destruct (meaning i) as [a|] eqn:E1; [|discriminate]. destruct (meanings is) as [b|] eqn:E2; [|discriminate]. injection Hm as <-. inversion He; subst.
    unfold text in *. cbn [map concat] in *. rewrite zlen_app in Hc. rewrite <- app_assoc. pose proof (zlen_nonneg (concat (map render is))).
    destruct (string_step f inner (zlen (34 :: r)) cap dest p i (concat (map render is) ++ 34 :: r) k a E1 H1 ltac:(rewrite zlen_app; lia) ltac:(lia)) as [-> Hl].
    rewrite (IH b); [|reflexivity|assumption|cbn in Hf; lia|rewrite zlen_app; lia]. rewrite rev_app_distr, <- !app_assoc. reflexivity.
Qed.
Lemma text_len is v : meanings is = Some v -> zlen (text is) >= Z.of_nat (length is).
Proof.
  revert v. induction is as [|i is IH]; intros v H; [cbn; lia|]. cbn [meanings] in H. destruct (meaning i) as [a|]; [|discriminate]. destruct (meanings is) as [b|]; [|discriminate].
  unfold text in *. cbn [map concat length]. rewrite zlen_app. specialize (IH b eq_refl). assert (1 <= zlen (render i)) by (destruct i; cbn [render]; rewrite ?zlen_cons; try pose proof (zlen_nonneg ds); change (zlen []) with 0; lia). lia.
Qed.
Lemma scan_string_items is v fuel p r k : meanings is = Some v -> Forall exact is -> zlen (text is) < Z.of_nat fuel ->
  scan_string fuel (Cur p (text is ++ 34 :: r) k) = Ok (Tok (TString v) (Cur (34 :: rev (text is) ++ p) r k)).
Proof.
  intros Hm He Hf. unfold scan_string. cbn [c_rest]. pose proof (SE_string_end _ _ (SE_items r is v Hm) fuel [] Hf) as Hend. cbn [app] in Hend. change (zlen []) with 0 in Hend. rewrite Hend. cbn [bind Z.add].
  rewrite zlen_app. replace (zlen (text is) + zlen (34 :: r) - zlen (text is)) with (zlen (34 :: r)) by lia. pose proof (text_len _ _ Hm).
  change v with ([] ++ v) at 1. apply string_loop_items; try assumption; [lia|]. change (zlen []) with 0. lia.
Qed.

(** *** And only those: a string that is accepted is made of items. *)
Lemma append_esc_inv cap dest b src n d : append_esc cap dest (b :: src) = Ok (Some n, d) ->
  exists i bs r, 92 :: b :: src = render i ++ r /\ meaning i = Some bs /\ length (render i) = S n /\ r = skipn (n - 1) src /\ (exact i -> d = dest ++ bs).
Proof.
  unfold append_esc. change (get (b :: src) 0) with (Ok b). cbn [bind]. cbv zeta. destruct (128 <=? b) eqn:B0; [discriminate|].
  destruct (valid_escape b <? 0) eqn:B1; [discriminate|].
  assert (Hex : forall x m (mk : list Z -> item), b = x -> (x = 120 /\ m = 2%nat) \/ (x = 117 /\ m = 4%nat) \/ (x = 85 /\ m = 8%nat) -> (forall ds, render (mk ds) = 92 :: x :: ds) ->
    (forall ds v, length ds = m -> hexnum 0 ds = Some v -> meaning (mk ds) = Some (if Nat.eqb m 2 then [v] else utf8 v) /\ (exact (mk ds) -> v <= (if Nat.eqb m 2 then 127 else 1114111))) ->
    (u <- esc_hex m 1 0 (b :: src) ;; match u with None => Ok (None, dest) | Some u => d <- puts cap dest (utf8_bytes u) ;; Ok (Some (S m), d) end) = Ok (Some n, d) ->
    exists i bs r, 92 :: b :: src = render i ++ r /\ meaning i = Some bs /\ length (render i) = S n /\ r = skipn (n - 1) src /\ (exact i -> d = dest ++ bs)).
  { intros x m mk -> Hx Hr Hmk H. destruct (esc_hex m 1 0 (x :: src)) as [[v|]| |] eqn:Ee; cbn [bind] in H; try discriminate.
    destruct (esc_hex_inv m [x] src 0 v Ee) as (ds & r & -> & Hl & Hv). destruct (puts cap dest (utf8_bytes v)) as [d'| |] eqn:Ep; cbn [bind] in H; try discriminate. injection H as <- <-.
    destruct (Hmk ds v Hl Hv) as [M1 M2]. exists (mk ds), (if Nat.eqb m 2 then [v] else utf8 v), r. rewrite Hr. split; [reflexivity|]. split; [exact M1|]. split; [cbn; lia|].
    split; [replace (S m - 1)%nat with (length ds) by lia; rewrite skipn_app, skipn_all, Nat.sub_diag; reflexivity|].
    intros Hex. specialize (M2 Hex). pose proof (hexnum_bound ds 0 v ltac:(lia) Hv) as [Hv0 _].
    assert (Hd : d' = dest ++ utf8_bytes v). { clear -Ep. revert dest d' Ep. induction (utf8_bytes v) as [|x l IH]; intros dest d' Ep; cbn [puts] in Ep; [rewrite app_nil_r; congruence|]. unfold put in Ep. destruct (_ <? _); [|discriminate]. cbn [bind] in Ep. apply IH in Ep. rewrite Ep, <- app_assoc. reflexivity. }
    rewrite Hd. f_equal. destruct (Nat.eqb m 2); [rewrite utf8_bytes_ok by lia; unfold utf8; replace (v <=? 127) with true by lia; reflexivity|apply utf8_bytes_ok; lia]. }
  assert (Hb : valid_escape b = 120 -> b = 120) by (unfold valid_escape; repeat match goal with |- context [if ?c then _ else _] => destruct c eqn:? end; lia).
  destruct (valid_escape b =? 120) eqn:B2.
  { apply (Hex 120 2%nat HexByte); [lia|auto|reflexivity|]. intros ds v Hl Hv. cbn [meaning exact]. rewrite Hl, Hv. split; [reflexivity|]. cbn. intros He. specialize (He v eq_refl). lia. }
  assert (Hb' : valid_escape b = 117 -> b = 117) by (unfold valid_escape; repeat match goal with |- context [if ?c then _ else _] => destruct c eqn:? end; lia).
  destruct (valid_escape b =? 117) eqn:B3.
  { apply (Hex 117 4%nat Uni); [lia|auto|reflexivity|]. intros ds v Hl Hv. cbn [meaning exact]. rewrite Hl, Hv. split; [reflexivity|]. cbn. intros _. pose proof (hexnum_bound ds 0 v ltac:(lia) Hv) as Hbd. unfold zlen in Hbd. rewrite Hl in Hbd. cbn in Hbd. lia. }
  assert (Hb'' : valid_escape b = 85 -> b = 85) by (unfold valid_escape; repeat match goal with |- context [if ?c then _ else _] => destruct c eqn:? end; lia).
  destruct (valid_escape b =? 85) eqn:B4.
  { apply (Hex 85 8%nat UniLong); [lia|auto|reflexivity|]. intros ds v Hl Hv. cbn [meaning exact]. rewrite Hl, Hv. split; [reflexivity|]. cbn. intros He. apply (He v eq_refl). }
  unfold put. destruct (_ <? cap); [|discriminate]. cbn [bind]. intros [= <- <-]. exists (Simple b), [valid_escape b], src. cbn [render meaning]. split; [reflexivity|].
  split; [|split; [reflexivity|split; [reflexivity|auto]]].
  clear - B1 B2 B3 B4. unfold valid_escape in B1, B2, B3, B4.
  repeat match goal with H : context [if b =? ?x then _ else _] |- _ => destruct (Z.eqb_spec b x); [subst b; first [reflexivity | discriminate]|] end; discriminate.
Qed.
Lemma meanings_cons_exact i is bs v : meaning i = Some bs -> (Forall exact is -> meanings is = Some v) -> Forall exact (i :: is) -> meanings (i :: is) = Some (bs ++ v).
Proof. intros H1 H2 H3. inversion H3; subst. cbn [meanings]. rewrite H1, H2 by assumption. reflexivity. Qed.
Lemma skipn_cons_len {A} n (l r : list A) : l = r -> length (skipn n l) = (length r - n)%nat. Proof. intros ->. apply skipn_length. Qed.

Lemma string_loop_inv : forall f inner stop cap dest c m t d, SE (c_rest c) m -> zlen (c_rest c) = stop + m -> string_loop f inner stop cap dest c = Ok (Tok t d) ->
  exists is v, t = TString v /\ Forall (fun i => meaning i <> None) is /\ c_rest c = text is ++ 34 :: c_rest d /\ (Forall exact is -> exists w, v = dest ++ w /\ meanings is = Some w).
Proof.
  induction f as [|f IH]; intros inner stop cap dest c m t d Hm Hs H; [discriminate|]. cbn [string_loop] in H. pose proof (SE_nonneg _ _ Hm).
  assert (NoErr : forall e, (e <- to_end_quote inner e ;; Ok (Err e)) = Ok (Tok t d) -> False) by (intros e He; destruct (to_end_quote inner e); discriminate).
  destruct (Z.ltb_spec stop (zlen (c_rest c))) as [Hlt|Hge].
  - destruct c as [p l k]. cbn [c_rest] in *. destruct l as [|a r]; [inversion Hm|]. rewrite peek_cons in H. cbn [bind] in H. rewrite next_cons in H. cbn [bind] in H.
    destruct (Z.eqb_spec a 92) as [->|Na].
    + destruct r as [|b r]; [discriminate|]. rewrite peek_cons in H. cbn [bind] in H. change (92 =? 0) with false in H. change (92 =? 10) with false in H. cbn [orb andb] in H. cbn [bind] in H.
      destruct (Z.eqb_spec b 0); [destruct (NoErr _ H)|]. destruct (Z.eqb_spec b 10); [rewrite back_cons in H; cbn [bind] in H; destruct (NoErr _ H)|]. cbn [c_rest] in H.
      inversion Hm as [|? ? Hz|? ? ? Hz|? ? m1 N1 N2 Hm1|]; subst; try lia.
      destruct (append_esc cap dest (b :: r)) as [[[n2|] d']| |] eqn:Ea; cbn [bind] in H; try discriminate; [|destruct (NoErr _ H)].
      destruct (append_esc_inv _ _ _ _ _ _ Ea) as (i & bs & r' & Er & Mi & Li & Sr & Hx).
      assert (Hn2 : (1 <= n2)%nat) by (destruct i as [c|c|ds|ds|ds]; [exfalso; cbn in Er; injection Er as <- _; discriminate|..]; cbn [render length] in Li; lia).
      assert (Skip : forall n q p2 k2 e, skip n (Cur p2 q k2) = Ok e -> c_rest e = skipn n q /\ (n <= length q)%nat).
      { clear. induction n as [|n IH]; intros q p2 k2 e He; cbn [skip] in He; [injection He as <-; split; [reflexivity|lia]|]. destruct q as [|x q]; [discriminate|]. rewrite next_cons in He. cbn [bind] in He. apply IH in He. cbn [skipn length]. split; [apply He|lia]. }
      destruct (skip n2 (Cur (92 :: p) (b :: r) (k + newlines [92]))) as [e| |] eqn:Es; cbn [bind] in H; try discriminate.
      destruct (Skip _ _ _ _ _ Es) as [Re Le]. destruct n2 as [|n2]; [lia|]. cbn [skipn] in Re. replace (S n2 - 1)%nat with n2 in * by lia.
      assert (HS : exists m2, SE r' m2 /\ zlen r' = stop + m2).
      { assert (Hds : match i with HexByte ds | Uni ds | UniLong ds => exists v, hexnum 0 ds = Some v | _ => True end).
        { destruct i; try exact I; cbn [meaning] in Mi; destruct (Nat.eqb _ _); try discriminate; destruct (hexnum 0 ds); try discriminate; eauto. }
        assert (Hh : forall ds, r = ds ++ r' -> Forall (fun c => is_hex c = true) ds -> exists m2, SE r' m2 /\ zlen r' = stop + m2).
        { intros ds Eds Fds. rewrite !zlen_cons, Eds, zlen_app in Hs. clear - Hm1 Eds Fds Hs. subst r. revert m1 Hm1 Hs. induction Fds as [|x ds Hx Fds IHd]; intros m1 Hm1 Hs; [exists m1; split; [exact Hm1|]; change (zlen (@nil Z)) with 0 in Hs; lia|].
          cbn [app] in Hm1. destruct (SE_hex _ _ _ Hx Hm1) as (m2 & -> & Hm2). apply (IHd m2 Hm2). rewrite zlen_cons in Hs. lia. }
        destruct i as [c|c|ds|ds|ds]; cbn [render app] in Er; cbn [render length] in Li.
        - injection Er as <- <-. discriminate.
        - injection Er as <- <-. exists m1. split; [exact Hm1|]. rewrite !zlen_cons in Hs. lia.
        - injection Er as -> ->. destruct Hds as (v & Hv). apply (Hh ds eq_refl). eapply hexnum_hex. exact Hv.
        - injection Er as -> ->. destruct Hds as (v & Hv). apply (Hh ds eq_refl). eapply hexnum_hex. exact Hv.
        - injection Er as -> ->. destruct Hds as (v & Hv). apply (Hh ds eq_refl). eapply hexnum_hex. exact Hv. }
      destruct HS as (m2 & Hm2 & Hz2). rewrite <- Re in Sr. subst r'.
      destruct (IH _ _ _ _ e m2 _ _ Hm2 Hz2 H) as (is & v & -> & Fi & Et & Hv). exists (i :: is), v. split; [reflexivity|]. split; [constructor; [congruence|exact Fi]|].
      split; [unfold text in *; cbn [map concat]; rewrite Er, Et, <- app_assoc; reflexivity|].
      intros Fe. inversion Fe; subst. destruct (Hv ltac:(assumption)) as (w & -> & Hw). exists (bs ++ w). rewrite (Hx ltac:(assumption)). rewrite <- app_assoc. split; [reflexivity|]. cbn [meanings]. rewrite Mi, Hw. reflexivity.
    + cbn [bind andb] in H. rewrite !orb_false_r in H. destruct (Z.eqb_spec a 0) as [->|]; [rewrite back_cons in H; cbn [bind] in H; destruct (NoErr _ H)|].
      destruct (Z.eqb_spec a 10) as [->|]; [rewrite back_cons in H; cbn [bind] in H; destruct (NoErr _ H)|]. unfold put in H. destruct (zlen dest <? cap); [|discriminate]. cbn [bind] in H.
      inversion Hm as [|? ? Hz| | |? ? m1 N1 N2 N3 N4 Hm1]; subst; [exfalso; lia..|].
      assert (Hz1 : zlen r = stop + m1) by (rewrite zlen_cons in Hs; lia). destruct (IH _ _ _ _ (Cur (a :: p) r (k + newlines [a])) m1 _ _ Hm1 Hz1 H) as (is & v & -> & Fi & Et & Hv).
      cbn [c_rest] in Et. assert (Ma : meaning (Plain a) = Some [a]). { cbn [meaning]. replace ((a =? 34) || (a =? 92) || (a =? 10) || (a =? 0)) with false by lia. reflexivity. }
      exists (Plain a :: is), v. split; [reflexivity|]. split; [constructor; [congruence|exact Fi]|]. split; [unfold text in *; cbn [map concat render app]; rewrite Et; reflexivity|].
      intros Fe. inversion Fe; subst. destruct (Hv ltac:(assumption)) as (w & -> & Hw). exists ([a] ++ w). rewrite <- app_assoc. split; [reflexivity|]. cbn [meanings]. rewrite Ma, Hw. reflexivity.
  - assert (m = 0) as -> by lia. destruct (SE_zero _ Hm) as (r & Er). destruct c as [p l k]. cbn [c_rest] in *. subst l. rewrite next_cons in H. cbn [bind] in H. unfold put in H. destruct (zlen dest <? cap); [|discriminate]. injection H as <- <-.
    exists [], dest. split; [reflexivity|]. split; [constructor|]. split; [reflexivity|]. intros _. exists []. rewrite app_nil_r. split; reflexivity.
Qed.
Lemma scan_string_inv fuel c t d : live (c_rest c) -> (length (c_rest c) < fuel)%nat -> scan_string fuel c = Ok (Tok t d) ->
  exists is v, t = TString v /\ Forall (fun i => meaning i <> None) is /\ c_rest c = text is ++ 34 :: c_rest d /\ (Forall exact is -> meanings is = Some v).
Proof.
  intros Lv Hf H. unfold scan_string in H. destruct (string_end_SE fuel (c_rest c) [] Lv Hf) as (m & Hm & Em). cbn [app] in Em. change (zlen []) with 0 in Em. rewrite Em in H. cbn [bind Z.add] in H.
  assert (Hz : zlen (c_rest c) = zlen (c_rest c) - m + m) by lia. destruct (string_loop_inv _ _ _ _ _ _ m _ _ Hm Hz H) as (is & v & -> & F & Et & Hv). exists is, v. split; [reflexivity|]. split; [exact F|]. split; [exact Et|]. intros Fe. destruct (Hv Fe) as (w & -> & Hw). exact Hw.
Qed.

Lemma escape_ok b : meaning (escape b) = Some [b] /\ exact (escape b).
Proof.
  unfold escape. repeat match goal with |- context [if b =? ?x then _ else _] => destruct (Z.eqb_spec b x); [subst b; split; [reflexivity|exact I]|] end.
  split; [|exact I]. cbn [meaning]. replace ((b =? 34) || (b =? 92) || (b =? 10) || (b =? 0)) with false by lia. reflexivity.
Qed.
Lemma escapes_ok bs : meanings (map escape bs) = Some bs /\ Forall exact (map escape bs).
Proof.
  induction bs as [|b bs [IH1 IH2]]; [split; [reflexivity|constructor]|]. destruct (escape_ok b) as [H1 H2]. cbn [map meanings]. rewrite H1, IH1. split; [reflexivity|constructor; assumption].
Qed.
Lemma escape_src bs : Forall (fun b => 0 <= b <= 255) bs -> Forall src_byte (text (map escape bs)).
Proof.
  induction 1 as [|b bs Hb _ IH]; [constructor|]. unfold text in *. cbn [map concat]. apply Forall_app. split; [|exact IH]. unfold escape.
  repeat match goal with |- context [if b =? ?x then _ else _] => destruct (Z.eqb_spec b x); [repeat constructor; lia|] end. repeat constructor; lia.
Qed.

Lemma raw_end_ok : forall s p x r k fuel, (length s < fuel)%nat -> Forall (fun c => c <> 0) s -> x <> 96 ->
  raw_end fuel (Cur p (raw_text s ++ 96 :: x :: r) k) = Ok (true, Cur (96 :: rev (raw_text s) ++ p) (x :: r) (k + newlines (raw_text s))).
Proof.
  induction s as [|a s IH]; intros p x r k fuel Hf F Hx; (destruct fuel as [|f]; [cbn in Hf; lia|]); cbn [raw_end].
  - cbn [raw_text flat_map app rev]. rewrite peek_cons. cbn [bind]. rewrite next_cons. cbn [bind]. change (96 =? 96) with true. cbv iota. rewrite peek_cons. cbn [bind]. replace (x =? 96) with false by lia. reflexivity.
  - inversion F; subst. cbn [length] in Hf. unfold raw_text in *. cbn [flat_map]. destruct (Z.eqb_spec a 96) as [->|Na]; cbn [app].
    + rewrite peek_cons. cbn [bind]. rewrite next_cons. cbn [bind]. change (96 =? 96) with true. cbv iota. rewrite peek_cons. cbn [bind]. change (96 =? 96) with true. change (96 =? 0) with false. cbn [andb negb]. rewrite next_cons. cbn [bind].
      change (newlines [96]) with 0. rewrite !Z.add_0_r. rewrite IH; [|lia|assumption|assumption]. cur. rewrite !newlines_cons. reflexivity.
    + rewrite peek_cons. cbn [bind]. rewrite next_cons. cbn [bind]. replace (a =? 96) with false by lia. cbn [bind andb]. replace (a =? 0) with false by lia. rewrite IH; [|lia|assumption|assumption]. cur. rewrite (newlines_cons a (flat_map _ _)), newlines_cons, newlines_nil. do 3 f_equal. lia.
Qed.
Lemma raw_copy_ok cap n : forall s u r dest fuel, (length s < fuel)%nat -> n = zlen u + zlen (raw_text s) -> zlen dest + zlen s < cap ->
  raw_copy fuel n cap (u ++ raw_text s ++ 96 :: r) (zlen u) dest = Ok (dest ++ s).
Proof.
  induction s as [|a s IH]; intros u r dest fuel Hf Hn Hc; (destruct fuel as [|f]; [cbn in Hf; lia|]); cbn [raw_copy].
  - change (zlen (raw_text [])) with 0 in Hn. replace (zlen u <? n) with false by lia. rewrite app_nil_r. reflexivity.
  - cbn [length] in Hf. rewrite zlen_cons in Hc. pose proof (zlen_nonneg s). unfold raw_text in *. cbn [flat_map] in *. rewrite zlen_app in Hn. pose proof (zlen_nonneg (flat_map (fun c => if c =? 96 then [96; 96] else [c]) s)).
    destruct (Z.eqb_spec a 96) as [->|Na]; cbn [app] in *.
    + change (zlen [96; 96]) with 2 in Hn. replace (zlen u <? n) with true by lia. rewrite get_app by reflexivity. cbn [bind]. change (96 =? 96) with true. cbv iota.
      set (rest := flat_map (fun c => if c =? 96 then [96; 96] else [c]) s ++ 96 :: r).
      replace (u ++ 96 :: 96 :: rest) with ((u ++ [96]) ++ 96 :: rest) by (rewrite <- app_assoc; reflexivity). rewrite get_app by (rewrite zlen_app; reflexivity). cbn [bind]. rewrite put_ok by lia. cbn [bind]. change (96 =? 96) with true. cbn [andb].
      replace ((u ++ [96]) ++ 96 :: rest) with ((u ++ [96; 96]) ++ rest) by (rewrite <- !app_assoc; reflexivity). replace (zlen u + 2) with (zlen (u ++ [96; 96])) by (rewrite zlen_app; reflexivity).
      unfold rest. rewrite IH; [rewrite <- app_assoc; reflexivity|lia|rewrite zlen_app; change (zlen [96; 96]) with 2; lia|rewrite zlen_app; change (zlen [96]) with 1; lia].
    + change (zlen [a]) with 1 in Hn. replace (zlen u <? n) with true by lia. rewrite get_app by reflexivity. cbn [bind]. replace (a =? 96) with false by lia. cbn [bind andb]. rewrite put_ok by lia. cbn [bind].
      set (rest := flat_map (fun c => if c =? 96 then [96; 96] else [c]) s ++ 96 :: r).
      replace (u ++ a :: rest) with ((u ++ [a]) ++ rest) by (rewrite <- app_assoc; reflexivity). replace (zlen u + 1) with (zlen (u ++ [a])) by (rewrite zlen_app; reflexivity).
      unfold rest. rewrite IH; [rewrite <- app_assoc; reflexivity|lia|rewrite zlen_app; change (zlen [a]) with 1; lia|rewrite zlen_app; change (zlen [a]) with 1; lia].
Qed.
Lemma raw_text_len s : zlen s <= zlen (raw_text s).
Proof. induction s as [|a s IH]; [cbn; lia|]. unfold raw_text in *. cbn [flat_map]. rewrite zlen_app, zlen_cons. destruct (a =? 96); cbn [length]; rewrite ?zlen_cons; change (zlen (@nil Z)) with 0; lia. Qed.
Lemma scan_raw_ok s p x r k fuel : (length s < fuel)%nat -> Forall (fun c => c <> 0) s -> x <> 96 ->
  scan_raw_string fuel (Cur p (raw_text s ++ 96 :: x :: r) k) = Ok (Tok (TString s) (Cur (96 :: rev (raw_text s) ++ p) (x :: r) (k + newlines (raw_text s)))).
Proof.
  intros Hf F Hx. unfold scan_raw_string. rewrite raw_end_ok by assumption. cbn [bind c_rest]. cbv zeta. rewrite zlen_app, (zlen_cons 96). 
  replace (zlen (raw_text s) + (1 + zlen (x :: r)) - zlen (x :: r) - 1) with (zlen (raw_text s)) by lia. pose proof (raw_text_len s).
  pose proof (raw_copy_ok (zlen (raw_text s) + 1) (zlen (raw_text s)) s [] (x :: r) [] fuel Hf ltac:(reflexivity) ltac:(change (zlen (@nil Z)) with 0; lia)) as Hc. cbn [app] in Hc. change (zlen (@nil Z)) with 0 in Hc. rewrite Hc. cbn [bind]. rewrite put_ok by lia. reflexivity.
Qed.
(** The converse: what is accepted is such a text. *)
Lemma raw_end_inv : forall fuel p l k d, raw_end fuel (Cur p l k) = Ok (true, d) -> exists s x r, l = raw_text s ++ 96 :: x :: r /\ x <> 96 /\ Forall (fun c => c <> 0) s /\ c_rest d = x :: r.
Proof.
  induction fuel as [|f IH]; intros p l k d H; [discriminate|]. cbn [raw_end] in H. destruct l as [|a l]; [discriminate|]. rewrite peek_cons in H. cbn [bind] in H. rewrite next_cons in H. cbn [bind] in H.
  destruct (Z.eqb_spec a 96) as [->|Na].
  - destruct l as [|b l]; [discriminate|]. rewrite peek_cons in H. cbn [bind andb] in H. destruct (Z.eqb_spec b 96) as [->|Nb]; cbn [negb] in H.
    + change (96 =? 0) with false in H. cbv iota in H. rewrite next_cons in H. cbn [bind] in H. destruct (IH _ _ _ _ H) as (s & x & r & -> & Hx & F & Hd). exists (96 :: s), x, r. split; [reflexivity|]. split; [exact Hx|]. split; [constructor; [lia|exact F]|exact Hd].
    + injection H as <-. exists [], b, l. repeat split; auto.
  - cbn [bind andb] in H. destruct (Z.eqb_spec a 0); [discriminate|]. destruct (IH _ _ _ _ H) as (s & x & r & -> & Hx & F & Hd). exists (a :: s), x, r.
    split; [unfold raw_text; cbn [flat_map]; replace (a =? 96) with false by lia; reflexivity|]. split; [exact Hx|]. split; [constructor; assumption|exact Hd].
Qed.
